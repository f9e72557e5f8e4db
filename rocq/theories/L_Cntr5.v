(** The first pass *)
From Coq Require Import Lia Sorting.Sorted.
From Verif Require Import M_Base M_Cntr L_Cntr1 L_Cntr2 L_Cntr3 L_Cntr4.

Lemma change_eq {A} n (d : Z -> A) k f : 0 <= k < n -> change n d k f = Ok (fun m => if m =? k then f (d k) else d m).
Proof. intro H. unfold change. rewrite get_ok by exact H. rewrite bind_Ok, put_ok by exact H. reflexivity. Qed.

Section Pass.
Variables imax jmax : Z.
Variable above : Z -> bool.
Variable centre : Z -> Z -> Z -> Z -> bool.
Hypothesis I2 : 2 <= imax.
Hypothesis J2 : 2 <= jmax.
Variable init : site -> bool.
Notation nreg := (nreg imax jmax).
Notation ijmax := (ijmax imax jmax).
Notation high := (high imax above).
Notation ix := (ix imax).
Notation lfo := (lfo imax).
Notation grid := (grid imax jmax).
Notation edge_ok := (edge_ok imax jmax).
Notation valid := (valid imax jmax).
Notation validb := (validb imax jmax).
Notation cut := (cut high).
Notation col := (col high).
Notation mk := (mk imax).
Notation op := (op imax).
Notation wf := (wf imax jmax above).
Notation pos := (pos imax).
Notation after := (after imax).
Notation afterb := (afterb imax).
Notation start := (start imax jmax above).
Notation cnt := (cnt imax jmax).
Notation is_next := (is_next imax jmax).
Notation agree := (agree imax).
Notation closing_of := (closing_of imax).
Notation ekey := (bool * Z * Z)%type.

Definition opnk (d : Z -> cell) (q : ekey) : Prop := let '(j, x, y) := q in j = false /\ (0 <= x < imax /\ 0 <= y < jmax) /\ c_open (d (x + y * imax)) = true.
Lemma opnk_key d x : opnk d (key x) <-> isj (sd x) = false /\ grid x /\ op d x = true. Proof. reflexivity. Qed.
Definition nclosed (P : list (site * bool)) : Z := len (filter snd P).
Definition total (D : list ekey) (P : list (site * bool)) : Z := len D + nclosed P.
Definition waiting (d : Z -> cell) (h : option site) : Z := cnt (fun s => mk d s && afterb h s)%bool.
(** What holds for given decisions at the saddles *)
Definition curves (T : Z * Z -> bool) (d : Z -> cell) (D : list ekey) (P : list (site * bool)) : Prop :=
  closedF imax jmax high T D /\ closedB imax jmax high T (opnk d) D /\ kept imax jmax high T D P /\ hold imax jmax high T D P.
Record inv (t : tracer) (h : option site) (D : list ekey) (P : list (site * bool)) : Prop := mkInv {
  i_wf : wf (t_data t);
  i_here : at_here imax jmax t h;
  i_none : h = None -> D = [] /\ P = [] /\ t_edge00 t = 0;
  i_start : forall s, grid s -> init s = true -> start s;
  i_mark : forall s, grid s -> mk (t_data t) s = true -> init s = true;
  i_keep : forall s, grid s -> init s = true -> mk (t_data t) s = true \/ In (key s) D;
  i_seen : forall s, grid s -> mk (t_data t) s = true -> ~ after h s -> In s (map fst P);
  i_ret : forall s, In s (map fst P) -> grid s /\ mk (t_data t) s = true /\ ~ after h s /\ In (key s) D;
  i_sort : StronglySorted (fun r s => pos r < pos s) (map fst P);
  i_new : forall s, grid s -> mk (t_data t) s = true -> after h s -> ~ In (key s) D;
  i_count : t_count t = waiting (t_data t) h;
  i_open : forall x, opnk (t_data t) (key x) -> In (key x) D /\ valid x /\ valid (flip x);
  i_done : forall k, 0 <= k < ijmax -> c_done (t_data t k) = match h with None => ((k =? 0) && (t_count t =? 0))%bool | Some _ => false end;
  i_row0 : h = None -> 0 < t_count t -> exists m, c_row (t_data t (Z.of_nat m * imax)) = true /\ forall s, grid s -> mk (t_data t) s = true -> Z.of_nat m * imax <= ix s;
  i_max : forall s, In s (map fst P) -> ix s <= t_edge00 t;
  i_last : (t_edge00 t = 0 /\ P = []) \/ exists s, In s (map fst P) /\ t_edge00 t = ix s;
  i_row : forall e r, e = 0 \/ In e (map ix (map fst P)) -> In r (map fst P) -> e < ix r -> exists m, e + Z.of_nat m * imax <= ix r /\ c_row (t_data t (e + Z.of_nat m * imax)) = true;
  i_dup : NoDup D;
  i_cut : forall q, In q D -> exists x, key x = q /\ edge_ok x /\ cut x;
  i_curves : forall T, agree (t_saddle t) T -> curves T (t_data t) D P }.

(** Only row flags differ *)
Definition rowlike (d d' : Z -> cell) : Prop := forall k, exists b, d' k = with_row b (d k).
Lemma rowlike_refl d : rowlike d d. Proof. intro k. exists (c_row (d k)). destruct (d k). reflexivity. Qed.
Lemma rowlike_set d k0 b : rowlike d (fun m => if m =? k0 then with_row b (d k0) else d m).
Proof. intro k. cbv beta. destruct (Z.eqb_spec k k0) as [->|_]; [exists b; reflexivity|apply rowlike_refl]. Qed.
Lemma rowlike_mk d d' s : rowlike d d' -> mk d' s = mk d s.
Proof. intro R. destruct (R (ix s)) as [b E]. unfold L_Cntr2.mk. rewrite E. destruct (sd s); reflexivity. Qed.
Lemma rowlike_op d d' s : rowlike d d' -> op d' s = op d s.
Proof. intro R. destruct (R (ix s)) as [b E]. unfold L_Cntr2.op. rewrite E. reflexivity. Qed.
Lemma rowlike_opnk d d' q : rowlike d d' -> opnk d' q <-> opnk d q.
Proof. intro R. destruct q as [[j x] y]. unfold opnk. destruct (R (x + y * imax)) as [b E]. rewrite E. reflexivity. Qed.
Lemma rowlike_wf d d' : rowlike d d' -> wf d -> wf d'.
Proof. intros R W x y Hx Hy. destruct (R (x + y * imax)) as [b E]. rewrite E. exact (W x y Hx Hy). Qed.
Lemma rowlike_next d d' h s : rowlike d d' -> is_next d h s -> is_next d' h s.
Proof. intros R [G [M [A L]]]. split; [exact G|]. rewrite (rowlike_mk d d' s R). split; [exact M|]. split; [exact A|]. intros u Gu Mu. rewrite (rowlike_mk d d' u R) in Mu. auto. Qed.
Lemma rowlike_closing d d' s : rowlike d d' -> closing_of d' s = closing_of d s.
Proof. intro R. destruct (R (ix s)) as [b E]. unfold L_Cntr3.closing_of. rewrite E. reflexivity. Qed.
Lemma rowlike_done d d' k : rowlike d d' -> c_done (d' k) = c_done (d k).
Proof. intro R. destruct (R k) as [b E]. rewrite E. reflexivity. Qed.

Lemma reg0 : 0 <= 0 < nreg. Proof. unfold M_Cntr.nreg. nia. Qed.
(** Finding the start *)
Lemma pass1_place t h D P fuel : inv t h D P -> 0 < t_count t -> nreg < Z.of_nat fuel -> exists s d1, is_next (t_data t) h s /\ rowlike (t_data t) d1 /\ (h <> None -> d1 = t_data t) /\
  curve_tracer imax jmax centre fuel false 0 t =
    (let t2 := mkT d1 (t_saddle t) (t_count t - 1) (ix s) (lfo (sd s)) (t_edge00 t) in
     do r <- zone_crosser imax jmax centre fuel false (closing_of (t_data t) s) 0 t2;
     let '(t, n, done, points) := r in
     if ((3 <? done) && closing_of (t_data t2) s)%bool then
        do d <- change nreg (t_data t) (ix s) (with_open true);
        do d <- change nreg d (ix s) (if 0 <? lfo (sd s) then with_i1 false else with_i0 false);
        Ok (with_data d t, - n, points)
      else
        do d <- change nreg (t_data t) (ix s - Z.rem (ix s - t_edge00 t) imax) (with_row true);
        Ok (mkT d (t_saddle t) (t_count t) (t_edge0 t) (t_left0 t) (ix s), n, points)).
Proof.
  intros I C Fu. destruct (next_exists imax jmax above centre I2 J2 (t_data t) h) as [s Ns]; [rewrite (i_count _ _ _ _ I) in C; exact C|].
  pose proof Ns as [Gs [Ms [As Ls]]]. pose proof (grid_ix imax jmax I2 J2 s Gs) as Bs. exists s. unfold curve_tracer.
  assert (St : start s) by (apply (i_start _ _ _ _ I); [exact Gs|apply (i_mark _ _ _ _ I); assumption]). destruct (start_ix imax jmax above I2 J2 s St) as [Ps _].
  pose proof (i_here _ _ _ _ I) as Hh. destruct h as [c|]; cbn [at_here] in Hh.
  - destruct Hh as [E0 [L0 [Gc Pc]]]. exists (t_data t). split; [exact Ns|]. split; [apply rowlike_refl|]. split; [reflexivity|]. rewrite E0, L0. pose proof (grid_ix imax jmax I2 J2 c Gc) as Bc. rewrite get_ok by (apply grid_reg; assumption). rewrite bind_Ok.
    destruct (two_starts imax (lfo (sd c)) (t_data t (ix c))) eqn:Tw; unfold next_place; rewrite E0; replace (false || (ix c =? 0))%bool with false by (symmetry; cbn; apply Z.eqb_neq; lia); replace (t_count t <=? 0) with false by (symmetry; apply Z.leb_gt; lia); rewrite bind_Ok.
    + rewrite L0, (next_two imax jmax I2 J2 (t_data t) c s Gc Gs Ns Tw fuel). reflexivity.
    + rewrite L0. rewrite (next_seek imax jmax I2 J2 (t_data t) (Some c) s (ix c + 1) fuel); [reflexivity|exact Ns| | |exact Fu].
      * split; [lia|]. destruct (Z.le_gt_cases (ix c + 1) (ix s)); [assumption|]. exfalso. cbn [L_Cntr3.after] in As. unfold L_Cntr3.pos in As. pose proof (rank_range (sd s)). pose proof (rank_range (sd c)). assert (E : ix s = ix c) by lia.
        assert (X : two_starts imax (lfo (sd c)) (t_data t (ix c)) = true) by (apply two_spec; [assumption|]; exists s; split; [exact E|]; split; [lia|exact Ms]). congruence.
      * intros u Gu Lu. cbn. unfold L_Cntr3.pos. pose proof (rank_range (sd u)). pose proof (rank_range (sd c)). lia.
  - destruct Hh as [E0 L0]. rewrite E0, L0. rewrite get_ok by exact reg0. rewrite bind_Ok.
    assert (Tw : two_starts imax 0 (t_data t 0) = false) by (unfold two_starts; replace (0 =? imax) with false by (symmetry; apply Z.eqb_neq; lia); reflexivity). rewrite Tw.
    unfold next_place. rewrite E0. cbn [orb Z.eqb negb andb]. rewrite get_ok by exact reg0. rewrite bind_Ok. rewrite (i_done _ _ _ _ I 0) by (unfold M_Cntr.ijmax; nia). replace (t_count t =? 0) with false by (symmetry; apply Z.eqb_neq; lia). rewrite andb_false_r.
    destruct (i_row0 _ _ _ _ I eq_refl C) as [m [Rm Lm]]. specialize (Lm s Gs Ms).
    assert (Bm : Z.of_nat m * imax < nreg) by (unfold M_Cntr.nreg; unfold M_Cntr.ijmax in Bs; lia).
    destruct (seek_ok imax jmax J2 (t_data t) c_row imax ltac:(lia) m fuel 0) as [m' [Lm' [Rm' [Sk _]]]]; [nia|lia|rewrite Z.add_0_l; exact Bm|rewrite Z.add_0_l; exact Rm|]. rewrite Z.add_0_l in *. rewrite Sk, bind_Ok.
    set (e := Z.of_nat m' * imax) in *. set (e' := if e =? 0 then e + 1 else e).
    assert (He : e' - Z.rem e' imax = e /\ 0 <= e' <= ix s /\ 0 <= e < nreg).
    { assert (0 <= e <= Z.of_nat m * imax) by (unfold e; nia). unfold e'. destruct (Z.eqb_spec e 0) as [Z0|Z0]; [rewrite Z0; cbn [Z.add]; rewrite Z.rem_small by lia; unfold M_Cntr.nreg; split; [lia|split; [lia|nia]]|]. unfold e at 2. rewrite Z.rem_mul by lia. split; [lia|]. lia. }
    destruct He as [He1 [He2 He3]]. rewrite He1, change_eq by exact He3. rewrite bind_Ok.
    set (d1 := fun k => if k =? e then with_row false (t_data t e) else t_data t k). assert (R : rowlike (t_data t) d1) by apply rowlike_set.
    exists d1. split; [exact Ns|]. split; [exact R|]. split; [congruence|]. rewrite bind_Ok. cbn [t_data with_data t_left0]. rewrite (next_seek imax jmax I2 J2 d1 None s e' fuel); [|exact (rowlike_next _ _ _ _ R Ns)|exact He2|intros; exact Logic.I|exact Fu].
    rewrite bind_Ok. cbn [t_saddle t_count t_edge00 t_data]. rewrite (rowlike_closing _ _ s R). reflexivity.
Qed.

Lemma filter_lt {A} (f g : A -> bool) l : (forall u, In u l -> f u = true -> g u = true) -> (length (filter f l) <= length (filter g l))%nat.
Proof.
  induction l as [|x l IH]; intro H; [apply Nat.le_refl|]. cbn. pose proof (IH (fun u Hu => H u (or_intror Hu))) as IH'. pose proof (H x (or_introl eq_refl)) as Hx. destruct (f x); [rewrite (Hx eq_refl)|destruct (g x)]; cbn [length]; lia.
Qed.
Lemma cnt_lt f g s : (forall u, grid u -> f u = true -> g u = true) -> grid s -> g s = true -> f s = false -> cnt f < cnt g.
Proof.
  intros H G Gs Fs. set (g' := fun u => (g u && if site_eq_dec u s then false else true)%bool).
  assert (E : cnt g = cnt g' + 1).
  { apply (cnt_less imax jmax I2 J2 g g' s G Gs); unfold g'; [destruct (site_eq_dec s s); [apply andb_false_r|congruence]|]. intros u _ N. destruct (site_eq_dec u s); [congruence|apply andb_true_r]. }
  assert (cnt f <= cnt g'); [|lia]. unfold L_Cntr3.cnt. apply inj_le. apply filter_lt. intros u Hu Fu. apply (sites_in imax jmax I2 J2) in Hu. unfold g'. rewrite (H u Hu Fu). destruct (site_eq_dec u s); [subst; congruence|reflexivity].
Qed.
Lemma closing_validb d s : wf d -> start s -> closing_of d s = validb (flip s).
Proof.
  intros W St. destruct (closing_spec imax jmax above I2 J2 d s W St) as [A B]. destruct (closing_of d s) eqn:E.
  - symmetry. apply validb_spec, A. reflexivity.
  - destruct (validb (flip s)) eqn:V; [|reflexivity]. exfalso. apply (B eq_refl). apply validb_spec, V.
Qed.
Lemma len_app {A} (l l' : list A) : len (l ++ l') = len l + len l'. Proof. unfold len. rewrite app_length. lia. Qed.
Lemma len_map {A B} (f : A -> B) l : len (map f l) = len l. Proof. unfold len. rewrite map_length. reflexivity. Qed.

Lemma aft h s : afterb h s = true <-> after h s. Proof. unfold L_Cntr3.afterb, L_Cntr3.after. destruct h; [apply Z.ltb_lt|split; intro; [exact Logic.I|reflexivity]]. Qed.

(** One call of curve_tracer in the first pass *)
Lemma pass1_step t h D P fuel : inv t h D P -> 0 < t_count t -> nreg < Z.of_nat fuel -> (length (all_keys imax jmax) + 2 < fuel)%nat ->
  exists t' n pts h' D' P', curve_tracer imax jmax centre fuel false 0 t = Ok (t', n, pts) /\ inv t' (Some h') D' P' /\ t_count t' < t_count t /\
    ((0 < n /\ len P' = len P + 1 /\ total D' P' = total D P + n) \/ (n < 0 /\ P' = P /\ total D' P' = total D P - n)).
Proof.
  intros I C Fu Fk. destruct (pass1_place t h D P fuel I C Fu) as [s [d1 [Ns [R1 [Rd ->]]]]]. cbv zeta. set (d := t_data t) in *.
  pose proof Ns as [Gs [Ms [As Ls]]]. assert (St : start s) by (apply (i_start _ _ _ _ I); [exact Gs|apply (i_mark _ _ _ _ I); assumption]).
  destruct (start_ix imax jmax above I2 J2 s St) as [Bs _]. pose proof St as [Vs [Cs Ks]].
  assert (W : wf d) by apply (i_wf _ _ _ _ I). assert (W1 : wf d1) by exact (rowlike_wf _ _ R1 W).
  assert (Es0 : ~ In (key s) D) by (apply (i_new _ _ _ _ I); assumption).
  set (t2 := mkT d1 (t_saddle t) (t_count t - 1) (ix s) (lfo (sd s)) (t_edge00 t)). cbn [t_data t2]. rewrite (rowlike_closing _ _ s R1).
  destruct (closing_spec imax jmax above I2 J2 d s W St) as [Cl1 Cl2]. pose proof (closing_validb d s W St) as Cv. set (closing := closing_of d s) in *.
  destruct (zone_crosser_ok imax jmax above centre I2 J2 false closing 0 s t2 fuel) as [t3 [n [done [pts [-> [l [e [Fr [Al [Ex [L [Nt [Tr [En [_ P1]]]]]]]]]]]]]]]; [exact W1|reflexivity|reflexivity|exact Cs|exact Vs|intro X; apply Cl1, X|exact Cl2|discriminate|exact Fk|].
  rewrite bind_Ok. destruct (P1 eq_refl) as [Kc [Op Mk]]. cbn [t_data t2] in Fr, Op, Mk, Kc, En. set (d3 := t_data t3) in *. cbn [t_saddle t2] in Ex. cbn [t_count t2] in Kc.
  destruct Al as [Al1 [Al2 Al3]]. cbn [t_edge0 t_left0 t_edge00 t2] in Al1, Al2, Al3.
  (* how the curve ended *)
  assert (HK : exists k, match k with KB => ~ valid e | KS => e = s /\ valid (flip s) | KO => valid e /\ opnk d (key e) end /\ done = (match k with KS => 3 | _ => 4 end) /\ n = len l + (match k with KO => 0 | _ => 1 end)).
  { destruct En as [[E1 [E2 [E3 _]]]|[[E1 [E2 [E3 [E4 _]]]]|[_ [E1 [E2 [E3 [E4 E5]]]]]]].
    - exists KB. auto.
    - exists KS. split; [split; [exact E2|apply Cl1, E1]|auto].
    - exists KO. split; [split; [exact E1|]|split; [exact E4|lia]]. apply opnk_key. split; [exact E2|]. split; [apply edge_grid, valid_edge, E1|]. rewrite <- (rowlike_op d d1 e R1). exact E3. }
  clear En. destruct HK as [k [HK [-> En]]].
  set (ret := match k with KS => true | _ => negb (validb (flip s)) end).
  set (b := match k with KS => true | _ => false end). assert (Eb : b = true <-> k = KS) by (unfold b; destruct k; split; congruence).
  assert (Ret : ((3 <? match k with KS => 3 | _ => 4 end) && closing)%bool = negb ret) by (unfold ret; rewrite Cv; destruct k; cbn; rewrite ?negb_involutive; reflexivity). rewrite Ret.
  set (D' := D ++ new_keys k l e). set (P' := if ret then P ++ [(s, b)] else P).
  assert (Nop : forall x, In x (tl l) -> ~ opnk d (key x)).
  { intros x Hx O. apply opnk_key in O as [O1 [_ O2]]. specialize (Op x Hx O1). rewrite (rowlike_op d d1 x R1) in Op. pose proof (eq_trans (eq_sym O2) Op). discriminate. }
  assert (S0 : ~ valid (flip s) \/ col s = true) by tauto.
  assert (Od : forall q, opnk d q -> In q D) by (intros [[j x] y] O; destruct j; [destruct O; discriminate|]; apply (i_open _ _ _ _ I (mkS x y Le)); exact O).
  assert (Oi : forall x, opnk d (key x) -> valid x /\ valid (flip x)) by (intros x O; apply (i_open _ _ _ _ I x O)).
  assert (Adv : forall T, agree (t_saddle t3) T -> NoDup D' /\ closedF imax jmax high T D' /\ closedB imax jmax high T (fun q => opnk d q \/ ret = false /\ q = key s) D' /\ kept imax jmax high T D' P' /\ hold imax jmax high T D' P').
  { intros T A. assert (A0 : agree (t_saddle t) T) by exact (agree_ext imax _ _ _ Ex A). destruct (i_curves _ _ _ _ I T A0) as [F [B [Kp Ho]]]. fold d in B.
    apply (advance imax jmax high T (opnk d) D P s l e k); auto. apply (i_dup _ _ _ _ I). }
  destruct (agree_some imax (t_saddle t3)) as [T0 A0]. pose proof (Adv T0 A0) as [ND' _]. pose proof (Tr T0 A0) as Tr0.
  assert (Fresh : (forall y, In y l -> ~ In (key y) D) /\ (k <> KO -> ~ In (key e) D)).
  { assert (A1 : agree (t_saddle t) T0) by exact (agree_ext imax _ _ _ Ex A0). destruct (i_curves _ _ _ _ I T0 A1) as [F [B _]].
    destruct (adv_fresh imax jmax high T0 (opnk d) D s l e k F B) as [Q1 [Q2 _]]; auto. }
  destruct Fresh as [Fr1 Fr2]. destruct (trail_col _ _ _ _ _ _ _ Tr0 Cs) as [Ce [Be Cl]].
  assert (HKB : ~ valid e -> k = KB). { intro NV. destruct k; [reflexivity| |]; exfalso; apply NV; [destruct HK as [-> _]; exact Vs|apply HK]. }
  assert (Ee : edge_ok e) by (apply (trail_end _ _ _ _ _ _ _ Tr0 L)).
  assert (Hl : exists l', l = s :: l') by (destruct l as [|z l']; [congruence|]; pose proof (trail_head _ _ _ _ _ _ _ _ Tr0) as ->; eauto).
  assert (Mk' : forall u, grid u -> mk d3 u = true <-> mk d u = true /\ ~ hit (tl l) u /\ ~ (~ valid e /\ u = flip e)) by (intros u Gu; rewrite (Mk u Gu), (rowlike_mk d d1 u R1); reflexivity). clear Mk.
  (* marks already visited stay *)
  assert (Keep : forall u, grid u -> mk d u = true -> In (key u) D -> mk d3 u = true).
  { intros u Gu Mu Iu. apply Mk'; [exact Gu|]. split; [exact Mu|]. split.
    - intros [y [Hy [_ Ey]]]. apply (Fr1 y); [destruct Hl as [l' ->]; right; exact Hy|congruence].
    - intros [NV ->]. rewrite key_flip in Iu. apply Fr2; [rewrite (HKB NV); discriminate|exact Iu]. }
  assert (Mself : mk d3 s = true).
  { apply Mk'; [exact Gs|]. split; [exact Ms|]. split.
    - intros [y [Hy [_ Ey]]]. pose proof (trail_keys _ _ _ _ _ _ _ Cs Tr0 Nt) as N. destruct Hl as [l' ->]. cbn in N, Hy. inversion N as [|? ? N1 N2]; subst. apply N1. rewrite <- Ey. apply in_map, Hy.
    - intros [_ X]. pose proof (col_flip high e Ce) as Y. rewrite <- X, Be in Y. destruct (col s); discriminate. }
  (* the new edges *)
  assert (New : forall q, In q (new_keys k l e) -> exists y, q = key y /\ edge_ok y /\ cut y).
  { intros q Hq. assert (X : exists y, q = key y /\ In y (l ++ [e])) by (unfold new_keys in Hq; destruct k; apply in_map_iff in Hq as [y [<- Hy]]; exists y; split; auto; apply in_or_app; left; exact Hy).
    destruct X as [y [-> Hy]]. exists y. split; [reflexivity|]. apply in_app_or in Hy as [Hy|[<-|[]]]; [split; [apply valid_edge; exact (trail_valid _ _ _ _ _ _ _ Tr0 y Hy)|apply Cl, Hy]|auto]. }
  assert (Fst : forall u, grid u -> mk d3 u = true -> after (Some s) u -> ~ In (key u) D').
  { intros u Gu Mu Au Iu. pose proof Mu as Mu3. apply Mk' in Mu as [Mu [Hh He]]; [|exact Gu]. assert (Su : start u) by (apply (i_start _ _ _ _ I); [exact Gu|apply (i_mark _ _ _ _ I); assumption]).
    assert (Ahu : after h u) by (destruct h as [c|]; [cbn in *; lia|exact Logic.I]).
    apply in_app_or in Iu as [Iu|Iu]; [exact (i_new _ _ _ _ I u Gu Mu Ahu Iu)|].
    assert (X : exists y, key u = key y /\ (In y l \/ (k = KB /\ y = e))) by (unfold new_keys in Iu; destruct k; apply in_map_iff in Iu as [y [Ey Hy]]; exists y; (split; [congruence|]); auto; apply in_app_or in Hy as [Hy|[<-|[]]]; auto).
    destruct X as [y [Ey [Hy|[Ek ->]]]].
    - destruct Hl as [l' El]. rewrite El in Hy. destruct Hy as [<-|Hy].
      + destruct (key_eq s u (eq_sym Ey)) as [->| ->]; [cbn in Au; lia|]. destruct Su as [Vf [_ [Q|[_ Q]]]]; [rewrite flip_flip in Q; contradiction|]. destruct S0 as [Q'|Q']; [contradiction|]. rewrite col_flip, Q' in Q by exact Cs. discriminate.
      + destruct (isj (sd y)) eqn:Jy; [|apply Hh; exists y; rewrite El; split; [exact Hy|auto]].
        assert (Vy : valid y /\ valid (flip y)).
        { split; [apply (trail_valid _ _ _ _ _ _ _ Tr0 y); rewrite El; right; exact Hy|]. apply in_split in Hy as [p1 [p2 Ep]]. rewrite El, Ep in Tr0. change (s :: p1 ++ y :: p2) with ((s :: p1) ++ y :: p2) in Tr0. apply trail_split in Tr0 as [v [A1 A2]]. inversion A2; subst. apply (trail_end _ _ _ _ _ _ _ A1). discriminate. }
        destruct Su as [_ [_ [Q|[Q _]]]]; [destruct (key_eq y u (eq_sym Ey)) as [->| ->]; [apply Q, Vy|rewrite flip_flip in Q; apply Q, Vy]|]. unfold key in Ey. injection Ey as Ey _ _. congruence.
    - rewrite Ek in HK. destruct (key_eq e u (eq_sym Ey)) as [->| ->]; [destruct Su; contradiction|]. apply He. auto. }
  assert (Cnt3 : t_count t3 = waiting d3 (Some s)).
  { rewrite !(kount_cnt imax jmax) in Kc. rewrite (cnt_split imax jmax (mk d3) (afterb (Some s))) in Kc. fold (waiting d3 (Some s)) in Kc. rewrite (cnt_ext imax jmax I2 J2 (mk d1) (mk d)) in Kc by (intros; apply rowlike_mk, R1). rewrite (cnt_split imax jmax (mk d) (afterb h)) in Kc. fold (waiting d h) in Kc. rewrite (i_count _ _ _ _ I) in Kc. fold d in Kc.
    assert (X : cnt (fun u => mk d3 u && negb (afterb (Some s) u))%bool = cnt (fun u => mk d u && negb (afterb h u))%bool + 1).
    { apply (cnt_less imax jmax I2 J2 _ _ s Gs).
      - rewrite Mself. cbn. rewrite Z.ltb_irrefl. reflexivity.
      - apply aft in As. rewrite As. apply andb_false_r.
      - intros u Gu Nu. destruct (mk d u && negb (afterb h u))%bool eqn:E2.
        + apply andb_true_iff in E2 as [Mu Au]. apply negb_true_iff in Au. assert (NA : ~ after h u) by (rewrite <- aft; congruence). pose proof (i_seen _ _ _ _ I u Gu Mu NA) as Iu. apply (i_ret _ _ _ _ I) in Iu as [_ [_ [_ Iu]]]. rewrite (Keep u Gu Mu Iu). cbn. destruct h as [c|]; [|exfalso; apply NA; exact Logic.I]. cbn in NA, As. symmetry. apply negb_true_iff, Z.ltb_ge. lia.
        + destruct (mk d3 u && negb (afterb (Some s) u))%bool eqn:E1; [|reflexivity]. exfalso. apply andb_true_iff in E1 as [Mu Au]. apply Mk' in Mu as [Mu _]; [|exact Gu]. rewrite Mu in E2. cbn in E2. apply negb_false_iff, aft in E2. pose proof (Ls u Gu Mu E2). cbn in Au. apply negb_true_iff, Z.ltb_ge in Au. apply Nu. apply (pos_inj imax jmax I2); [exact Gu|exact Gs|lia]. }
    lia. }
  assert (Less : t_count t3 < t_count t).
  { rewrite Cnt3, (i_count _ _ _ _ I). fold d. unfold waiting. apply (cnt_lt _ _ s); [|exact Gs|apply aft in As; rewrite Ms, As; reflexivity|cbn; rewrite Z.ltb_irrefl; apply andb_false_r].
    intros u Gu X. apply andb_true_iff in X as [X Y]. apply Mk' in X as [X _]; [|exact Gu]. rewrite X. apply aft in Y. cbn. apply aft. destruct h as [c|]; [cbn in *; lia|exact Logic.I]. }
  assert (Wf3 : wf d3) by exact (frame_wf imax jmax above _ _ Fr W1).
  assert (Op3 : forall q, opnk d3 q <-> opnk d q).
  { intro q. rewrite <- (rowlike_opnk d d1 q R1). destruct q as [[j x] y]. unfold opnk. pose proof (Fr (x + y * imax)) as E. unfold skel in E. injection E as _ _ _ _ E _. rewrite E. reflexivity. }
  assert (Done3 : forall m, 0 <= m < ijmax -> c_done (d3 m) = false).
  { intros m Hm. pose proof (Fr m) as E. unfold skel in E. injection E as _ _ _ _ _ E. rewrite E, (rowlike_done d d1 m R1). unfold d. rewrite (i_done _ _ _ _ I m Hm). destruct h; [reflexivity|]. replace (t_count t =? 0) with false by (symmetry; apply Z.eqb_neq; lia). apply andb_false_r. }
  assert (Row3 : P <> [] -> forall m, c_row (d3 m) = c_row (d m)).
  { intros NP m. pose proof (Fr m) as E. unfold skel in E. injection E as _ _ _ E _ _. rewrite E. rewrite Rd; [reflexivity|]. intros ->. destruct (i_none _ _ _ _ I eq_refl) as [_ [X _]]. exact (NP X). }
  assert (Pbefore : forall u, In u (map fst P) -> pos u < pos s).
  { intros u Hu. destruct (i_ret _ _ _ _ I u Hu) as [_ [_ [NA _]]]. destruct h as [c|]; [cbn in *; lia|exfalso; apply NA; exact Logic.I]. }
  assert (PixS : forall u, In u (map fst P) -> ix u <= ix s).
  { intros u Hu. specialize (Pbefore u Hu). unfold L_Cntr3.pos in Pbefore. pose proof (rank_range (sd u)). pose proof (rank_range (sd s)). lia. }
  assert (E00 : 0 <= t_edge00 t <= ix s).
  { destruct (i_last _ _ _ _ I) as [[-> _]|[r [Hr ->]]]; [lia|]. split; [|apply PixS, Hr]. destruct (i_ret _ _ _ _ I r Hr) as [Gr _]. apply (grid_ix imax jmax I2 J2 r Gr). }
  assert (Ins : In (key s) D') by (apply in_or_app; right; destruct Hl as [l' ->]; destruct k; left; reflexivity).
  assert (Cut' : forall q, In q D' -> exists x, key x = q /\ edge_ok x /\ cut x).
  { intros q Hq. apply in_app_or in Hq as [Hq|Hq]; [exact (i_cut _ _ _ _ I q Hq)|]. destruct (New q Hq) as [y [-> Hy]]. exists y. auto. }
  assert (Ln : 0 < len l) by (unfold len; destruct l; [congruence|cbn [length]; lia]).
  assert (Tot : len D' = len D + n - (if b then 1 else 0)).
  { unfold D'. rewrite len_app, En. unfold b, new_keys. destruct k; rewrite len_map, ?len_app; unfold len; cbn [length]; lia. }
  destruct ret eqn:Rt; cbn [negb].
  - (* the curve is kept *)
    rewrite Al3.
    assert (Rem : Z.rem (ix s - t_edge00 t) imax = (ix s - t_edge00 t) mod imax) by (apply Z.rem_mod_nonneg; lia). rewrite Rem.
    set (g := (ix s - t_edge00 t) / imax). assert (Eg : ix s - (ix s - t_edge00 t) mod imax = t_edge00 t + g * imax) by (unfold g; pose proof (Z.div_mod (ix s - t_edge00 t) imax ltac:(lia)); lia). rewrite Eg.
    assert (Hg : 0 <= g /\ t_edge00 t + g * imax <= ix s). { split; [apply Z.div_pos; lia|]. rewrite <- Eg. pose proof (Z.mod_pos_bound (ix s - t_edge00 t) imax). lia. }
    rewrite change_eq by (unfold M_Cntr.nreg; unfold M_Cntr.ijmax in Bs; nia). rewrite bind_Ok.
    set (d4 := fun m => if m =? t_edge00 t + g * imax then with_row true (d3 (t_edge00 t + g * imax)) else d3 m). assert (R4 : rowlike d3 d4) by apply rowlike_set.
    exists (mkT d4 (t_saddle t3) (t_count t3) (t_edge0 t3) (t_left0 t3) (ix s)), n, pts, s, D', P'. split; [reflexivity|].
    assert (Nrow : forall m, c_row (d3 m) = true -> c_row (d4 m) = true) by (intros m Hm; unfold d4; destruct (m =? t_edge00 t + g * imax); [reflexivity|exact Hm]).
    assert (Mk4 : forall u, mk d4 u = mk d3 u) by (intro u; apply rowlike_mk, R4).
    assert (EP' : map fst P' = map fst P ++ [s]) by (unfold P'; rewrite map_app; reflexivity).
    split; [|split; [exact Less|left; split; [rewrite En; destruct k; lia|split; [unfold P'; rewrite len_app; unfold len; cbn; lia|]]]].
    + constructor; cbn [t_data t_saddle t_count t_edge0 t_left0 t_edge00].
      * exact (rowlike_wf _ _ R4 Wf3).
      * cbn. rewrite Al1, Al2. split; [reflexivity|]. split; [reflexivity|]. split; [exact Gs|apply Bs].
      * discriminate.
      * exact (i_start _ _ _ _ I).
      * intros u Gu Mu. rewrite Mk4 in Mu. apply Mk' in Mu as [Mu _]; [|exact Gu]. exact (i_mark _ _ _ _ I u Gu Mu).
      * intros u Gu Iu. rewrite Mk4. destruct (i_keep _ _ _ _ I u Gu Iu) as [Mu|Mu]; [|right; apply in_or_app; left; exact Mu].
        destruct (mk d3 u) eqn:E; [left; reflexivity|]. right. destruct (in_dec key_eq_dec (key u) D') as [Q|Q]; [exact Q|]. exfalso. assert (mk d3 u = true); [|congruence]. apply Mk'; [exact Gu|]. split; [exact Mu|]. split.
        -- intros [y [Hy [_ Ey]]]. apply Q. rewrite <- Ey. apply in_or_app. right. assert (In y l) by (destruct Hl as [l' ->]; right; exact Hy). unfold new_keys. destruct k; apply in_map; [apply in_or_app; left|..]; assumption.
        -- intros [NV ->]. apply Q. rewrite key_flip. apply in_or_app. right. rewrite (HKB NV). cbn [new_keys]. apply in_map, in_or_app. right. left. reflexivity.
      * intros u Gu Mu NA. rewrite Mk4 in Mu. rewrite EP'. apply in_or_app. destruct (site_eq_dec u s) as [->|Nu]; [right; left; reflexivity|]. left. apply Mk' in Mu as [Mu _]; [|exact Gu]. apply (i_seen _ _ _ _ I u Gu Mu). intro X. pose proof (Ls u Gu Mu X). apply Nu, (pos_inj imax jmax I2); [exact Gu|exact Gs|cbn in NA; lia].
      * intros u Hu. rewrite EP' in Hu. rewrite Mk4. apply in_app_or in Hu as [Hu|[<-|[]]]; [|split; [exact Gs|]; split; [exact Mself|]; split; [cbn; lia|exact Ins]].
        destruct (i_ret _ _ _ _ I u Hu) as [Gu [Mu [NA Iu]]]. split; [exact Gu|]. split; [exact (Keep u Gu Mu Iu)|]. split; [cbn; specialize (Pbefore u Hu); lia|apply in_or_app; left; exact Iu].
      * rewrite EP'. pose proof (i_sort _ _ _ _ I) as So. clear - So Pbefore. induction So as [|x q So IH Fo]; [constructor; [constructor|constructor]|]. cbn. constructor; [apply IH; intros u Hu; apply Pbefore; right; exact Hu|]. apply Forall_app. split; [exact Fo|]. constructor; [apply Pbefore; left; reflexivity|constructor].
      * intros u Gu Mu Au. rewrite Mk4 in Mu. exact (Fst u Gu Mu Au).
      * rewrite Cnt3. unfold waiting. apply (cnt_ext imax jmax I2 J2). intros u _. rewrite Mk4. reflexivity.
      * intros x O. apply (rowlike_opnk d3 d4 _ R4), Op3 in O. destruct (i_open _ _ _ _ I x O) as [Q1 Q2]. split; [apply in_or_app; left; exact Q1|exact Q2].
      * intros m Hm. rewrite (rowlike_done d3 d4 m R4). exact (Done3 m Hm).
      * discriminate.
      * intros u Hu. rewrite EP' in Hu. apply in_app_or in Hu as [Hu|[<-|[]]]; [exact (PixS u Hu)|lia].
      * right. exists s. rewrite EP'. split; [apply in_or_app; right; left; reflexivity|reflexivity].
      * intros e0 r He Hr Lr. rewrite EP' in He, Hr. assert (Ne : e0 = 0 \/ In e0 (map ix (map fst P))).
        { destruct He as [He|He]; [left; exact He|]. rewrite map_app in He. apply in_app_or in He as [He|[<-|[]]]; [right; exact He|]. apply in_app_or in Hr as [Hr|[<-|[]]]; [specialize (PixS r Hr); lia|lia]. }
        assert (NewCase : ix r = ix s \/ In r (map fst P)) by (apply in_app_or in Hr as [Hr|[<-|[]]]; auto).
        destruct NewCase as [Er|Hr'].
        -- destruct (Z.eq_dec e0 (t_edge00 t)) as [->|Nn].
           ++ exists (Z.to_nat g). rewrite Z2Nat.id by lia. split; [lia|]. unfold d4. rewrite Z.eqb_refl. reflexivity.
           ++ destruct (i_last _ _ _ _ I) as [[X PN]|[r1 [Hr1 X]]]; [exfalso; rewrite PN in Ne; destruct Ne as [Ne|[]]; lia|].
              destruct (i_row _ _ _ _ I e0 r1 Ne Hr1) as [m [M1 M2]].
              { assert (e0 <= ix r1); [|lia]. rewrite <- X. destruct Ne as [->|Ne]; [lia|]. apply in_map_iff in Ne as [r2 [<- Hr2]]. exact (i_max _ _ _ _ I r2 Hr2). }
              exists m. specialize (PixS r1 Hr1). split; [lia|]. apply Nrow. rewrite Row3; [exact M2|]. intros ->. destruct Hr1.
        -- destruct (i_row _ _ _ _ I e0 r Ne Hr' Lr) as [m [M1 M2]]. exists m. split; [exact M1|]. apply Nrow. rewrite Row3; [exact M2|]. intros ->. destruct Hr'.
      * exact ND'.
      * exact Cut'.
      * intros T A. destruct (Adv T A) as [_ [Q1 [Q2 [Q3 Q4]]]]. split; [exact Q1|]. split; [|split; assumption]. intros x X1 X2 X3 X4 X5. apply Q2; auto. intro O. apply X5. apply (rowlike_opnk d3 d4 _ R4), Op3. destruct O as [O|[O _]]; [exact O|discriminate].
    + unfold total, nclosed. rewrite Tot. unfold P'. rewrite filter_app, len_app. cbn [filter snd]. destruct b; unfold len; cbn [length]; lia.
  - (* the curve will be reached from the boundary *)
    assert (Nk : k <> KS /\ validb (flip s) = true). { unfold ret in Rt. destruct k; try discriminate; (split; [discriminate|apply negb_false_iff, Rt]). }
    destruct Nk as [NKS Vf]. assert (Js : isj (sd s) = false) by (apply Cl1; rewrite Cv; exact Vf). apply validb_spec in Vf.
    rewrite change_eq by (apply grid_reg; [assumption|lia]). rewrite bind_Ok. rewrite change_eq by (apply grid_reg; [assumption|lia]). rewrite bind_Ok. rewrite Z.eqb_refl.
    assert (Rb : (if 0 <? lfo (sd s) then with_i1 false else with_i0 false) = rub (sd s)) by (rewrite (lfo_pos imax I2); destruct (sd s); try discriminate; reflexivity). rewrite Rb.
    set (d4 := fun m => if m =? ix s then rub (sd s) (with_open true (d3 (ix s))) else if m =? ix s then with_open true (d3 (ix s)) else d3 m).
    exists (with_data d4 t3), (- n), pts, s, D', P'. split; [reflexivity|].
    assert (D4 : forall m, m <> ix s -> d4 m = d3 m) by (intros m Hm; unfold d4; rewrite (proj2 (Z.eqb_neq m (ix s)) Hm); reflexivity).
    assert (D4s : d4 (ix s) = rub (sd s) (with_open true (d3 (ix s)))) by (unfold d4; rewrite Z.eqb_refl; reflexivity).
    assert (Mk4 : forall u, grid u -> mk d4 u = true <-> mk d3 u = true /\ u <> s).
    { intros u Gu. unfold L_Cntr2.mk. destruct (Z.eq_dec (ix u) (ix s)) as [E|E].
      - rewrite E, D4s. destruct (site_eq_dec u s) as [->|Nu]; [split; [destruct (sd s); discriminate|intros [_ X]; congruence]|]. assert (Nd : sd u <> sd s) by (intro X; apply Nu, (ix_dec imax jmax I2); assumption).
        rewrite mk_rub by exact Nd. destruct (sd u); cbn; tauto.
      - rewrite D4 by exact E. split; [intro X; split; [exact X|congruence]|intros [X _]; exact X]. }
    assert (Same : forall m, c_z (d4 m) = c_z (d3 m) /\ c_ib (d4 m) = c_ib (d3 m) /\ c_jb (d4 m) = c_jb (d3 m) /\ c_row (d4 m) = c_row (d3 m) /\ c_done (d4 m) = c_done (d3 m)).
    { intro m. destruct (Z.eq_dec m (ix s)) as [->|E]; [rewrite D4s; destruct (sd s); repeat split|rewrite D4 by exact E; repeat split]. }
    assert (Op4 : forall q, opnk d4 q <-> opnk d3 q \/ q = key s).
    { intros [[j x] y]. unfold opnk. destruct (Z.eq_dec (x + y * imax) (ix s)) as [E|E].
      - rewrite E, D4s. split.
        + intros [-> [Gx _]]. right. destruct (ix_inj imax jmax I2 (mkS x y Le) s Gx Gs E) as [X Y]. cbn in X, Y. unfold key. rewrite Js. congruence.
        + intro Q. assert (X : j = false /\ (0 <= x < imax /\ 0 <= y < jmax)).
          { destruct Q as [[Q1 [Q2 _]]|Q]; [auto|]. unfold key in Q. injection Q as -> -> ->. split; [exact Js|exact Gs]. }
          destruct X as [X1 X2]. split; [exact X1|]. split; [exact X2|]. destruct (sd s); reflexivity.
      - rewrite D4 by exact E. split; [auto|]. intros [Q|Q]; [exact Q|]. exfalso. apply E. unfold key in Q. injection Q as _ -> ->. reflexivity. }
    assert (EP' : P' = P) by reflexivity.
    split; [|split; [exact Less|right; split; [rewrite En; destruct k; lia|split; [reflexivity|]]]].
    + constructor; cbn [t_data t_saddle t_count t_edge0 t_left0 t_edge00 with_data].
      * intros x y Hx Hy. destruct (Same (x + y * imax)) as [-> [-> [-> _]]]. exact (Wf3 x y Hx Hy).
      * cbn. rewrite Al1, Al2. split; [reflexivity|]. split; [reflexivity|]. split; [exact Gs|apply Bs].
      * discriminate.
      * exact (i_start _ _ _ _ I).
      * intros u Gu Mu. apply Mk4 in Mu as [Mu _]; [|exact Gu]. apply Mk' in Mu as [Mu _]; [|exact Gu]. exact (i_mark _ _ _ _ I u Gu Mu).
      * intros u Gu Iu. destruct (i_keep _ _ _ _ I u Gu Iu) as [Mu|Mu]; [|right; apply in_or_app; left; exact Mu].
        destruct (in_dec key_eq_dec (key u) D') as [Q|Q]; [right; exact Q|]. left. apply Mk4; [exact Gu|]. split; [|intros ->; exact (Q Ins)]. apply Mk'; [exact Gu|]. split; [exact Mu|]. split.
        -- intros [y [Hy [_ Ey]]]. apply Q. rewrite <- Ey. apply in_or_app. right. assert (In y l) by (destruct Hl as [l' ->]; right; exact Hy). unfold new_keys. destruct k; apply in_map; [apply in_or_app; left|..]; assumption.
        -- intros [NV ->]. apply Q. rewrite key_flip. apply in_or_app. right. rewrite (HKB NV). cbn [new_keys]. apply in_map, in_or_app. right. left. reflexivity.
      * intros u Gu Mu NA. apply Mk4 in Mu as [Mu Nu]; [|exact Gu]. apply Mk' in Mu as [Mu _]; [|exact Gu]. apply (i_seen _ _ _ _ I u Gu Mu). intro X. pose proof (Ls u Gu Mu X). apply Nu, (pos_inj imax jmax I2); [exact Gu|exact Gs|cbn in NA; lia].
      * intros u Hu. destruct (i_ret _ _ _ _ I u Hu) as [Gu [Mu [NA Iu]]]. split; [exact Gu|]. split; [apply Mk4; [exact Gu|]; split; [exact (Keep u Gu Mu Iu)|intros ->; exact (Es0 Iu)]|]. split; [cbn; specialize (Pbefore u Hu); lia|apply in_or_app; left; exact Iu].
      * exact (i_sort _ _ _ _ I).
      * intros u Gu Mu Au. apply Mk4 in Mu as [Mu _]; [|exact Gu]. exact (Fst u Gu Mu Au).
      * cbn. rewrite Cnt3. unfold waiting. apply (cnt_ext imax jmax I2 J2). intros u Gu. destruct (site_eq_dec u s) as [->|Nu]; [cbn; rewrite Z.ltb_irrefl, !andb_false_r; reflexivity|]. f_equal.
        destruct (mk d3 u) eqn:E3; [symmetry; apply Mk4; auto|]. destruct (mk d4 u) eqn:E4; [|reflexivity]. apply Mk4 in E4 as [X _]; [congruence|exact Gu].
      * intros x O. apply Op4 in O as [O|O]; [apply Op3 in O; destruct (i_open _ _ _ _ I x O) as [Q1 Q2]; split; [apply in_or_app; left; exact Q1|exact Q2]|]. rewrite O. split; [exact Ins|]. destruct (key_eq s x (eq_sym O)) as [->| ->]; [auto|]. rewrite flip_flip. auto.
      * intros m Hm. destruct (Same m) as [_ [_ [_ [_ ->]]]]. exact (Done3 m Hm).
      * discriminate.
      * cbn. rewrite Al3. exact (i_max _ _ _ _ I).
      * cbn. rewrite Al3. exact (i_last _ _ _ _ I).
      * intros e0 r He Hr Lr. destruct (i_row _ _ _ _ I e0 r He Hr Lr) as [m [M1 M2]]. exists m. split; [exact M1|]. destruct (Same (e0 + Z.of_nat m * imax)) as [_ [_ [_ [-> _]]]]. rewrite Row3; [exact M2|]. intros X. rewrite EP', X in Hr. destruct Hr.
      * exact ND'.
      * exact Cut'.
      * intros T A. destruct (Adv T A) as [_ [Q1 [Q2 [Q3 Q4]]]]. split; [exact Q1|]. split; [|split; assumption]. intros x X1 X2 X3 X4 X5. apply Q2; auto. intro O. apply X5. apply Op4. destruct O as [O|[_ O]]; [left; apply Op3; exact O|right; exact O].
    + unfold total, P'. rewrite Tot. unfold b. destruct k; try congruence; lia.
Qed.
End Pass.

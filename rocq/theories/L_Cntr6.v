(** The end of the first pass and the second pass *)
From Coq Require Import Lia Sorting.Sorted.
From Verif Require Import M_Base M_Cntr L_Cntr1 L_Cntr2 L_Cntr3 L_Cntr4 L_Cntr5.

Section Passes.
Variables imax jmax : Z.
Variable above : Z -> bool.
Variable centre : Z -> Z -> Z -> Z -> bool.
Hypothesis I2 : 2 <= imax.
Hypothesis J2 : 2 <= jmax.
Variable init : site -> bool.
Notation nreg := (nreg imax jmax).
Notation ijmax := (ijmax imax jmax).
Notation high := (high imax above).
Notation ix := (ix imax).
Notation lfo := (lfo imax).
Notation grid := (grid imax jmax).
Notation edge_ok := (edge_ok imax jmax).
Notation valid := (valid imax jmax).
Notation validb := (validb imax jmax).
Notation cut := (cut high).
Notation col := (col high).
Notation mk := (mk imax).
Notation op := (op imax).
Notation wf := (wf imax jmax above).
Notation pos := (pos imax).
Notation after := (after imax).
Notation afterb := (afterb imax).
Notation start := (start imax jmax above).
Notation cnt := (cnt imax jmax).
Notation is_next := (is_next imax jmax).
Notation agree := (agree imax).
Notation closing_of := (closing_of imax).
Notation ends := (ends imax).
Notation ekey := (bool * Z * Z)%type.
Notation inv := (inv imax jmax above init).
Notation curves := (curves imax jmax above).

(** The state after the first pass: d are the data, E the index with the end mark *)
Record fin (d : Z -> cell) (D : list ekey) (P : list (site * bool)) (E : Z) : Prop := mkFin {
  f_wf : wf d;
  f_mark : forall s, grid s -> mk d s = true <-> In s (map fst P);
  f_start : forall s, In s (map fst P) -> start s /\ In (key s) D;
  f_sort : StronglySorted (fun r s => pos r < pos s) (map fst P);
  f_done : forall k, 0 <= k < ijmax -> c_done (d k) = (k =? E);
  f_last : (E = 0 /\ P = []) \/ exists s, In s (map fst P) /\ E = ix s;
  f_max : forall s, In s (map fst P) -> ix s <= E;
  f_row : forall e r, e = 0 \/ In e (map ix (map fst P)) -> In r (map fst P) -> e < ix r -> exists m, e + Z.of_nat m * imax <= ix r /\ c_row (d (e + Z.of_nat m * imax)) = true;
  f_dup : NoDup D;
  f_cut : forall q, In q D -> exists x, key x = q /\ edge_ok x /\ cut x;
  f_init : forall s, grid s -> init s = true -> In (key s) D }.

Lemma pass1_stop t h D P fuel : inv t h D P -> t_count t <= 0 -> exists t' E, curve_tracer imax jmax centre fuel false 0 t = Ok (t', 0, []) /\
  fin (t_data t') D P E /\ t_edge0 t' = 0 /\ t_left0 t' = 0 /\ t_saddle t' = t_saddle t /\ forall T, agree (t_saddle t) T -> curves T (t_data t') D P.
Proof.
  intros I C. assert (C0 : t_count t = 0) by (pose proof (cnt_nonneg imax jmax (fun s => mk (t_data t) s && afterb h s)%bool); rewrite (i_count _ _ _ _ _ _ _ _ I) in *; unfold waiting in *; lia).
  assert (M : forall s, grid s -> mk (t_data t) s = true <-> In s (map fst P)).
  { intros s G. split; [|intro Hs; apply (i_ret _ _ _ _ _ _ _ _ I s Hs)]. intro Ms. apply (i_seen _ _ _ _ _ _ _ _ I s G Ms). intro A. rewrite (i_count _ _ _ _ _ _ _ _ I) in C. pose proof (cnt_zero imax jmax I2 J2 _ s C G) as X. cbv beta in X. rewrite Ms in X. cbn in X. apply (aft imax) in A. congruence. }
  assert (S : forall s, In s (map fst P) -> start s /\ In (key s) D).
  { intros s Hs. destruct (i_ret _ _ _ _ _ _ _ _ I s Hs) as [G [Ms [_ K]]]. split; [|exact K]. apply (i_start _ _ _ _ _ _ _ _ I s G), (i_mark _ _ _ _ _ _ _ _ I s G Ms). }
  assert (In0 : forall s, grid s -> init s = true -> In (key s) D).
  { intros s G Is. destruct (i_keep _ _ _ _ _ _ _ _ I s G Is) as [Ms|K]; [|exact K]. apply S, M; assumption. }
  pose proof (i_here _ _ _ _ _ _ _ _ I) as Hh. destruct h as [c|]; cbn [at_here] in Hh.
  - destruct Hh as [E0 [L0 [Gc Pc]]]. pose proof (grid_ix imax jmax I2 J2 c Gc) as Bc. set (E := t_edge00 t).
    assert (BE : 0 <= E < ijmax) by (destruct (i_last _ _ _ _ _ _ _ _ I) as [[X _]|[r [Hr X]]]; unfold E; rewrite X; [unfold M_Cntr.ijmax; nia|]; apply (grid_ix imax jmax I2 J2), (i_ret _ _ _ _ _ _ _ _ I r Hr)).
    assert (BE' : 0 <= E < nreg) by (unfold M_Cntr.nreg; unfold M_Cntr.ijmax in BE; lia).
    set (d' := fun m => if m =? E then with_done true (t_data t E) else t_data t m).
    exists (mkT d' (t_saddle t) (t_count t) 0 0 0), E.
    assert (Same : forall m, exists b, d' m = with_done b (t_data t m)).
    { intro m. unfold d'. destruct (Z.eqb_spec m E) as [->|_]; [exists true; reflexivity|exists (c_done (t_data t m)); destruct (t_data t m); reflexivity]. }
    assert (Mk : forall s, mk d' s = mk (t_data t) s) by (intro s; unfold L_Cntr2.mk; destruct (Same (ix s)) as [b ->]; destruct (sd s); reflexivity).
    split; [|split; [|split; [reflexivity|split; [reflexivity|split; [reflexivity|intros T A]]]]].
    + unfold curve_tracer. rewrite E0. rewrite get_ok by (apply grid_reg; assumption). rewrite bind_Ok. unfold next_place. rewrite E0. replace (false || (ix c =? 0))%bool with false by (symmetry; cbn; apply Z.eqb_neq; lia). replace (t_count t <=? 0) with true by (symmetry; apply Z.leb_le; lia). rewrite change_eq by exact BE'. reflexivity.
    + constructor; cbn [t_data].
      * intros x y Hx Hy. destruct (Same (x + y * imax)) as [b ->]. exact (i_wf _ _ _ _ _ _ _ _ I x y Hx Hy).
      * intros s G. rewrite Mk. apply M, G.
      * exact S.
      * apply (i_sort _ _ _ _ _ _ _ _ I).
      * intros k Hk. unfold d'. destruct (Z.eqb_spec k E) as [->|_]; [reflexivity|]. apply (i_done _ _ _ _ _ _ _ _ I k Hk).
      * apply (i_last _ _ _ _ _ _ _ _ I).
      * apply (i_max _ _ _ _ _ _ _ _ I).
      * intros e r He Hr Lr. destruct (i_row _ _ _ _ _ _ _ _ I e r He Hr Lr) as [m [M1 M2]]. exists m. split; [exact M1|]. destruct (Same (e + Z.of_nat m * imax)) as [b ->]. exact M2.
      * apply (i_dup _ _ _ _ _ _ _ _ I).
      * apply (i_cut _ _ _ _ _ _ _ _ I).
      * exact In0.
    + destruct (i_curves _ _ _ _ _ _ _ _ I T A) as [Q1 [Q2 Q3]]. split; [exact Q1|]. split; [|exact Q3]. intros x X1 X2 X3 X4 X5. apply Q2; auto. intro O. apply X5. cbn [t_data]. destruct x as [x y dd]. unfold opnk, key in *. cbn in *. destruct (Same (x + y * imax)) as [b ->]. exact O.
  - destruct Hh as [E0 L0]. destruct (i_none _ _ _ _ _ _ _ _ I eq_refl) as [D0 [P0 E00]]. subst D P. exists t, 0. split; [|split; [|split; [exact E0|split; [exact L0|split; [reflexivity|apply (i_curves _ _ _ _ _ _ _ _ I)]]]]].
    + unfold curve_tracer. rewrite E0, L0. rewrite get_ok by exact (reg0 imax jmax I2 J2). rewrite bind_Ok.
      assert (Tw : two_starts imax 0 (t_data t 0) = false) by (unfold two_starts; replace (0 =? imax) with false by (symmetry; apply Z.eqb_neq; lia); reflexivity). rewrite Tw.
      unfold next_place. rewrite E0. cbn [orb Z.eqb]. rewrite get_ok by exact (reg0 imax jmax I2 J2). rewrite bind_Ok. rewrite (i_done _ _ _ _ _ _ _ _ I 0) by (unfold M_Cntr.ijmax; nia). rewrite C0. reflexivity.
    + constructor.
      * apply (i_wf _ _ _ _ _ _ _ _ I).
      * exact M.
      * exact S.
      * constructor.
      * intros k Hk. rewrite (i_done _ _ _ _ _ _ _ _ I k Hk), C0. apply andb_true_r.
      * left. split; reflexivity.
      * intros s [].
      * intros e r _ [].
      * constructor.
      * intros q [].
      * exact In0.
Qed.

Lemma first_pass_ok inner : nreg < Z.of_nat inner -> (length (all_keys imax jmax) + 2 < inner)%nat -> forall fuel t h D P np nt, inv t h D P -> t_count t < Z.of_nat fuel ->
  exists t' D' P' E, first_pass imax jmax centre fuel inner np nt t = Ok (t', np + (len P' - len P), nt + (total D' P' - total D P)) /\ fin (t_data t') D' P' E /\
    t_edge0 t' = 0 /\ t_left0 t' = 0 /\ forall T, agree (t_saddle t') T -> curves T (t_data t') D' P'.
Proof.
  intros Fi Fk. induction fuel as [|f IH]; intros t h D P np nt I C.
  - exfalso. pose proof (cnt_nonneg imax jmax (fun s => mk (t_data t) s && afterb h s)%bool). rewrite (i_count _ _ _ _ _ _ _ _ I) in C. unfold waiting in C. lia.
  - cbn [first_pass]. destruct (Z.le_gt_cases (t_count t) 0) as [C0|C0].
    + destruct (pass1_stop t h D P inner I C0) as [t' [E [-> [Fi' [A1 [A2 [A3 A4]]]]]]]. rewrite bind_Ok. cbn [Z.eqb]. exists t', D, P, E. rewrite !Z.sub_diag, !Z.add_0_r. split; [reflexivity|]. split; [exact Fi'|]. split; [exact A1|]. split; [exact A2|]. rewrite A3. exact A4.
    + destruct (pass1_step imax jmax above centre I2 J2 init t h D P inner I C0 Fi Fk) as [t' [n [pts [h' [D' [P' [-> [I' [Le' Alt]]]]]]]]]. rewrite bind_Ok. destruct Alt as [[N [LP To]]|[N [-> To]]].
      * replace (n =? 0) with false by (symmetry; apply Z.eqb_neq; lia). replace (0 <? n) with true by (symmetry; apply Z.ltb_lt; lia).
        destruct (IH t' (Some h') D' P' (np + 1) (nt + n) I') as [t2 [D2 [P2 [E [-> R]]]]]; [lia|]. exists t2, D2, P2, E. split; [|exact R]. f_equal; f_equal; [f_equal|]; lia.
      * replace (n =? 0) with false by (symmetry; apply Z.eqb_neq; lia). replace (0 <? n) with false by (symmetry; apply Z.ltb_ge; lia).
        destruct (IH t' (Some h') D' P np (nt - n) I') as [t2 [D2 [P2 [E [-> R]]]]]; [lia|]. exists t2, D2, P2, E. split; [|exact R]. f_equal. f_equal. lia.
Qed.

(** The second pass *)
Definition traces (T : Z * Z -> bool) (P : list (site * bool)) (out : list (list (Z * Z))) : Prop :=
  Forall2 (fun p pts => exists l e, full imax jmax high T (fst p) (snd p) l e /\ pts = map ends l ++ [ends (if snd p then fst p else flip e)]) P out.
Definition fits (T : Z * Z -> bool) (P : list (site * bool)) (room : Z) : Prop :=
  exists Q, Forall2 (fun p ks => exists l e, full imax jmax high T (fst p) (snd p) l e /\ ks = fkeys (snd p) l e) P Q /\ len (concat Q) + nclosed P <= room.
Lemma kept_fits T D P : kept imax jmax high T D P -> fits T P (total D P).
Proof.
  intros [Q [F [N Ic]]]. exists Q. split; [exact F|]. unfold total. pose proof (NoDup_incl_length N Ic). unfold len. lia.
Qed.
Lemma fkeys_len b l e : len (fkeys b l e) + (if b then 1 else 0) = len l + 1.
Proof. unfold fkeys. destruct b; rewrite len_map, ?len_app; unfold len; cbn [length]; lia. Qed.
Lemma fits_cons T r b P room : fits T ((r, b) :: P) room -> exists l e, full imax jmax high T r b l e /\ fits T P (room - (len l + 1)) /\ len l + 1 <= room.
Proof.
  intros [Q [F N]]. inversion F as [|? ks ? Q' [l [e [Fu ->]]] F' E1 E2]; subst. exists l, e. split; [exact Fu|]. cbn [fst snd] in *. pose proof (fkeys_len b l e) as K. cbn [concat] in N. rewrite len_app in N. unfold nclosed in *. cbn [filter snd] in N. split.
  - exists Q'. split; [exact F'|]. unfold nclosed. destruct b; unfold len in *; cbn [length] in N; lia.
  - destruct b; unfold len in *; cbn [length] in N; lia.
Qed.

(** One call of curve_tracer in the second pass *)
Definition last_of (done : list (site * bool)) : option site := match rev done with [] => None | p :: _ => Some (fst p) end.
Lemma last_of_snoc done p : last_of (done ++ [p]) = Some (fst p). Proof. unfold last_of. rewrite rev_unit. reflexivity. Qed.
Lemma last_of_in done c : last_of done = Some c -> In c (map fst done).
Proof. unfold last_of. destruct (rev done) as [|p q] eqn:E; [discriminate|]. intro H. injection H as <-. apply in_map. rewrite <- (rev_involutive done), E. apply in_rev. rewrite rev_involutive. left. reflexivity. Qed.
Lemma last_of_none done : last_of done = None -> done = [].
Proof. unfold last_of. destruct (rev done) eqn:E; [|discriminate]. intros _. rewrite <- (rev_involutive done), E. reflexivity. Qed.
Lemma sorted_app {A} (R : A -> A -> Prop) l l' : StronglySorted R (l ++ l') -> StronglySorted R l' /\ forall x y, In x l -> In y l' -> R x y.
Proof.
  induction l as [|z l IH]; intro H; [split; [exact H|intros x y []]|]. cbn in H. inversion H as [|? ? H1 H2]; subst. destruct (IH H1) as [A1 A2]. split; [exact A1|]. intros x y [<-|Hx] Hy; [|auto]. rewrite Forall_forall in H2. apply H2, in_or_app. right. exact Hy.
Qed.
Lemma sorted_last {A} (R : A -> A -> Prop) l x y : StronglySorted R (l ++ [x]) -> In y (l ++ [x]) -> y = x \/ R y x.
Proof. intros H Hy. apply sorted_app in H as [_ H]. apply in_app_or in Hy as [Hy|[<-|[]]]; [right; apply H; [exact Hy|left; reflexivity]|left; reflexivity]. Qed.

Definition here2 (t : tracer) (h : option site) : Prop := match h with None => t_edge0 t = 0 /\ t_left0 t = 0 | Some c => t_edge0 t = ix c /\ t_left0 t = lfo (sd c) end.
Lemma two_none d : two_starts imax 0 (d 0) = false.
Proof. unfold two_starts. replace (0 =? imax) with false by (symmetry; apply Z.eqb_neq; lia). reflexivity. Qed.

Section Second.
Variables (d : Z -> cell) (D : list ekey) (P : list (site * bool)) (E : Z).
Hypothesis F : fin d D P E.
Variable inner : nat.
Hypothesis Fi : nreg < Z.of_nat inner.
Hypothesis Fk : (length (all_keys imax jmax) + 2 < inner)%nat.
(** A property of the saddle array that crossing zones preserves *)
Variable Ps : (Z -> option bool) -> Prop.
Hypothesis Hps : forall closing room s t t' n dn pts, t_left0 t = lfo (sd s) -> zone_crosser imax jmax centre inner true closing room t = Ok (t', n, dn, pts) -> Ps (t_saddle t) -> Ps (t_saddle t').

Lemma split_pos done rest : P = done ++ rest -> forall u, In u (map fst rest) -> after (last_of done) u.
Proof.
  intros EP u Hu. destruct (last_of done) as [c|] eqn:L; [|exact Logic.I]. pose proof (f_sort _ _ _ _ F) as S. rewrite EP, map_app in S. apply sorted_app in S as [_ S]. cbn. apply S; [apply last_of_in, L|exact Hu].
Qed.
Lemma before done rest c u : P = done ++ rest -> last_of done = Some c -> In u (map fst done) -> pos u <= pos c.
Proof.
  intros EP L Hu. destruct (rev done) as [|p q] eqn:Er; [unfold last_of in L; rewrite Er in L; discriminate|]. assert (Ed : done = rev q ++ [p]) by (rewrite <- (rev_involutive done), Er; reflexivity). unfold last_of in L. rewrite Er in L. injection L as <-.
  pose proof (f_sort _ _ _ _ F) as S. rewrite EP, Ed, !map_app in S. cbn in S. rewrite Ed, map_app in Hu. cbn in Hu. apply in_app_or in Hu as [Hu|[<-|[]]]; [|lia].
  rewrite <- app_assoc in S. apply sorted_app in S as [_ S]. assert (pos u < pos (fst p)); [|lia]. apply S; [exact Hu|left; reflexivity].
Qed.

Lemma pass2_place done r b rest t : P = done ++ (r, b) :: rest -> t_data t = d -> here2 t (last_of done) ->
  forall room, curve_tracer imax jmax centre inner true room t =
    (do q <- zone_crosser imax jmax centre inner true (closing_of d r) room (mkT d (t_saddle t) (t_count t) (ix r) (lfo (sd r)) (t_edge00 t));
     let '(t, n, _, points) := q in Ok (t, n, points)).
Proof.
  intros EP Ed Hh room.
  assert (Ir : In r (map fst P)) by (rewrite EP, map_app; apply in_or_app; right; left; reflexivity).
  destruct (f_start _ _ _ _ F r Ir) as [Sr _]. destruct (start_ix imax jmax above I2 J2 r Sr) as [Br Gr].
  assert (Nr : is_next d (last_of done) r).
  { split; [exact Gr|]. split; [apply (f_mark _ _ _ _ F r Gr), Ir|]. split; [apply (split_pos done _ EP); left; reflexivity|]. intros u Gu Mu Au. apply (f_mark _ _ _ _ F u Gu) in Mu. rewrite EP, map_app in Mu. apply in_app_or in Mu as [Mu|[<-|Mu]]; [|cbn; lia|].
    - destruct (last_of done) as [c|] eqn:L; [|rewrite (last_of_none _ L) in Mu; destruct Mu]. pose proof (before _ _ c u EP L Mu). cbn in Au. lia.
    - pose proof (f_sort _ _ _ _ F) as S. rewrite EP, map_app in S. apply sorted_app in S as [S _]. cbn in S. inversion S as [|? ? _ S2]; subst. rewrite Forall_forall in S2. specialize (S2 u Mu). lia. }
  destruct t as [td ts tc te tl0 te0]. cbn [t_data] in Ed. subst td. unfold curve_tracer. cbn [t_data t_edge0 t_left0].
  assert (He : 0 <= te < ijmax /\ te <= ix r /\ (te = 0 \/ In te (map ix (map fst P)))).
  { destruct (last_of done) as [c|] eqn:L; cbn in Hh; destruct Hh as [-> _]; [|unfold M_Cntr.ijmax; split; [nia|split; [lia|auto]]].
    assert (Ic : In c (map fst P)) by (rewrite EP, map_app; apply in_or_app; left; apply last_of_in, L). destruct (f_start _ _ _ _ F c Ic) as [Sc _]. destruct (start_ix imax jmax above I2 J2 c Sc) as [Bc Gc]. split; [lia|]. split; [|right; apply in_map, Ic].
    destruct Nr as [_ [_ [A _]]]. cbn in A. unfold L_Cntr3.pos in A. pose proof (rank_range (sd r)). pose proof (rank_range (sd c)). lia. }
  destruct He as [He1 [He2 He3]].
  assert (Hreg : 0 <= te < nreg) by (unfold M_Cntr.nreg; unfold M_Cntr.ijmax in He1; lia). rewrite get_ok by exact Hreg. rewrite bind_Ok.
  assert (Two : two_starts imax tl0 (d te) = true -> exists c, last_of done = Some c /\ te = ix c /\ tl0 = lfo (sd c)).
  { destruct (last_of done) as [c|]; cbn in Hh; destruct Hh as [-> ->]; [eauto|]. rewrite two_none. discriminate. }
  destruct (two_starts imax tl0 (d te)) eqn:Tw.
  - destruct (Two eq_refl) as [c [L [-> ->]]]. unfold next_place. cbn [orb t_edge0 t_left0]. rewrite bind_Ok. cbn [t_data t_left0].
    assert (Gc : grid c). { assert (Ic : In c (map fst P)) by (rewrite EP, map_app; apply in_or_app; left; apply last_of_in, L). destruct (f_start _ _ _ _ F c Ic) as [Sc _]. exact (proj2 (start_ix imax jmax above I2 J2 c Sc)). }
    rewrite L in Nr. rewrite (next_two imax jmax I2 J2 d c r Gc Gr Nr Tw inner). reflexivity.
  - assert (Lt : te < ix r).
    { destruct (Z.lt_ge_cases te (ix r)) as [|Ge]; [assumption|]. exfalso. assert (Eq : ix r = te) by lia. destruct (last_of done) as [c|] eqn:L; cbn in Hh; destruct Hh as [E1 E2]; [|lia].
      subst. destruct Nr as [_ [Mr [A _]]]. cbn in A. unfold L_Cntr3.pos in A. assert (X : two_starts imax (lfo (sd c)) (d (ix c)) = true) by (apply two_spec; [assumption|]; exists r; split; [exact Eq|]; split; [lia|exact Mr]). congruence. }
    unfold next_place. cbn [orb t_edge0 t_data]. rewrite get_ok by exact Hreg. rewrite bind_Ok. rewrite (f_done _ _ _ _ F te He1). pose proof (f_max _ _ _ _ F r Ir) as Mx. replace (te =? E) with false by (symmetry; apply Z.eqb_neq; lia).
    destruct (f_row _ _ _ _ F te r He3 Ir Lt) as [m [M1 M2]].
    assert (Hm : Z.of_nat m <= Z.of_nat m * imax /\ ijmax < nreg) by (split; [nia|unfold M_Cntr.nreg, M_Cntr.ijmax; lia]).
    destruct (seek_ok imax jmax J2 d c_row imax ltac:(lia) m inner te) as [m' [Lm' [Rm' [Sk _]]]]; [lia|lia|unfold M_Cntr.nreg; unfold M_Cntr.ijmax in Br; lia|exact M2|]. rewrite Sk, bind_Ok. rewrite andb_false_r, !bind_Ok. cbn [t_left0 t_data with_data t_saddle t_count t_edge0 t_edge00].
    set (e := te + Z.of_nat m' * imax). rewrite (next_seek imax jmax I2 J2 d (last_of done) r (if e =? te then e + 1 else e) inner); [reflexivity|exact Nr| | |exact Fi].
    + assert (te <= e <= ix r) by (unfold e; nia). destruct (Z.eqb_spec e te); lia.
    + intros u Gu Lu. destruct (last_of done) as [c|] eqn:L; cbn in Hh |- *; [|exact Logic.I]. destruct Hh as [Hh _]. assert (te < ix u). { assert (te <= e) by (unfold e; nia). destruct (Z.eqb_spec e te); lia. }
      unfold L_Cntr3.pos. pose proof (rank_range (sd u)). pose proof (rank_range (sd c)). lia.
Qed.

Lemma second_pass_ok nparts : forall rest done fuel t room curves, P = done ++ rest -> t_data t = d -> here2 t (last_of done) -> (length rest < fuel)%nat ->
  (forall T, agree (t_saddle t) T -> fits T rest room) -> len curves + len rest <= nparts -> Ps (t_saddle t) ->
  exists out sad, second_pass imax jmax centre fuel inner nparts room curves t = Ok (curves ++ out) /\ ext (t_saddle t) sad /\ Ps sad /\ forall T, agree sad T -> traces T rest out.
Proof.
  induction rest as [|[r b] rest IH]; intros done fuel t room curves EP Ed Hh Lf Fit Np HS.
  - exists [], (t_saddle t). rewrite app_nil_r in EP. subst done. destruct fuel as [|f]; [inversion Lf|]. cbn [second_pass].
    assert (R0 : 0 <= room). { destruct (agree_some imax (t_saddle t)) as [T0 A0]. destruct (Fit T0 A0) as [Q [FQ N]]. inversion FQ; subst. cbn in N. unfold nclosed, len in N. cbn in N. lia. }
    assert (Stop : curve_tracer imax jmax centre inner true room t = Ok (t, 0, [])).
    { unfold curve_tracer. assert (HE : t_edge0 t = E /\ two_starts imax (t_left0 t) (d E) = false).
      { destruct (last_of P) as [c|] eqn:L; cbn in Hh; destruct Hh as [-> ->].
        - assert (Ic : In c (map fst P)) by (apply last_of_in, L). assert (Ec : ix c = E). { pose proof (f_max _ _ _ _ F c Ic). destruct (f_last _ _ _ _ F) as [[_ X]|[s [Hs Es]]]; [rewrite X in Ic; destruct Ic|]. pose proof (before P [] c s (eq_sym (app_nil_r P)) L Hs) as B. unfold L_Cntr3.pos in B. pose proof (rank_range (sd s)). pose proof (rank_range (sd c)). lia. }
          split; [exact Ec|]. destruct (two_starts imax (lfo (sd c)) (d E)) eqn:Tw; [|reflexivity]. exfalso. rewrite <- Ec in Tw. apply two_spec in Tw as [s [Es [Rs Ms]]]; [|assumption].
          destruct (f_start _ _ _ _ F c Ic) as [Sc _]. destruct (start_ix imax jmax above I2 J2 c Sc) as [_ [Gx Gy]].
          (* the mark found lies on the grid *)
          set (s' := mkS (sx c) (sy c) (sd s)). assert (Gs : grid s') by (split; assumption). assert (Es' : ix s' = ix c) by reflexivity. assert (Ms' : mk d s' = true) by (unfold L_Cntr2.mk in *; rewrite Es'; rewrite Es in Ms; exact Ms).
          apply (f_mark _ _ _ _ F s' Gs) in Ms'. pose proof (before P [] c s' (eq_sym (app_nil_r P)) L Ms') as B. unfold L_Cntr3.pos in B. rewrite Es' in B. cbn [sd s'] in B. lia.
        - apply last_of_none in L. destruct (f_last _ _ _ _ F) as [[Es _]|[s [Hs _]]]; [|rewrite L in Hs; destruct Hs]. rewrite Es. split; [reflexivity|apply two_none]. }
      destruct HE as [HE1 HE2]. rewrite Ed, HE1. assert (BE : 0 <= E < ijmax). { destruct (f_last _ _ _ _ F) as [[Es _]|[s [Hs Es]]]; rewrite Es; [unfold M_Cntr.ijmax; nia|]. destruct (f_start _ _ _ _ F s Hs) as [Sc _]. destruct (start_ix imax jmax above I2 J2 s Sc) as [Bc _]. lia. }
      assert (BE' : 0 <= E < nreg) by (unfold M_Cntr.nreg; unfold M_Cntr.ijmax in BE; lia). rewrite get_ok by exact BE'. rewrite bind_Ok, HE2. unfold next_place. cbn [orb]. rewrite Ed, HE1, get_ok by exact BE'. rewrite bind_Ok, (f_done _ _ _ _ F E BE), Z.eqb_refl. reflexivity. }
    rewrite Stop, bind_Ok. replace (room <? 0) with false by (symmetry; apply Z.ltb_ge; lia). cbn [Z.eqb]. rewrite app_nil_r. split; [reflexivity|]. split; [apply ext_refl|]. split; [exact HS|]. intros T _. constructor.
  - destruct fuel as [|f]; [inversion Lf|]. cbn [second_pass]. rewrite (pass2_place done r b rest t EP Ed Hh room).
    assert (Ir : In r (map fst P)) by (rewrite EP, map_app; apply in_or_app; right; left; reflexivity). destruct (f_start _ _ _ _ F r Ir) as [Sr _].
    destruct (closing_spec imax jmax above I2 J2 d r (f_wf _ _ _ _ F) Sr) as [Cl1 Cl2]. pose proof Sr as [Vr [Cr _]].
    set (t2 := mkT d (t_saddle t) (t_count t) (ix r) (lfo (sd r)) (t_edge00 t)).
    destruct (zone_crosser_ok imax jmax above centre I2 J2 true (closing_of d r) room r t2 inner) as [t3 [n [dn [pts [Ez [l [e [Fr [Al [Ex [L [Nt [Tr [En [P2 _]]]]]]]]]]]]]]]; [exact (f_wf _ _ _ _ F)|reflexivity|reflexivity|exact Cr|exact Vr|intro X; apply Cl1, X|exact Cl2| |exact Fk|].
    { intros _ T l e A Tr Nt. destruct (fits_cons T r b rest room (Fit T A)) as [l0 [e0 [Fu [_ Lr]]]]. pose proof (full_longest _ _ _ _ _ _ _ _ _ _ Fu Tr Nt). unfold len in *. lia. }
    assert (Hs3 : Ps (t_saddle t3)) by exact (Hps (closing_of d r) room r t2 t3 n dn pts eq_refl Ez HS). rewrite Ez.
    rewrite !bind_Ok. destruct (P2 eq_refl) as [Pd Pc]. cbn [t_data t_count t2] in Pd, Pc. cbn [t_saddle t2] in Ex.
    assert (End : n = len l + 1 /\ ((~ valid e /\ pts = map ends l ++ [ends (flip e)]) \/ (e = r /\ pts = map ends l ++ [ends r]))).
    { destruct En as [[E1 [E2 [E3 E4]]]|[[E1 [E2 [E3 [E4 E5]]]]|[X _]]]; [auto|auto|discriminate]. }
    destruct End as [-> End].
    assert (Det : forall T, agree (t_saddle t3) T -> full imax jmax high T r b l e /\ fits T rest (room - (len l + 1)) /\ len l + 1 <= room).
    { intros T A. destruct (fits_cons T r b rest room (Fit T (agree_ext imax _ _ _ Ex A))) as [l0 [e0 [Fu [Fr' Lr]]]]. destruct (full_det _ _ _ _ _ _ _ _ _ _ Fu (Tr T A) L Nt) as [-> ->]; [tauto|]. auto. }
    destruct (agree_some imax (t_saddle t3)) as [T0 A0]. destruct (Det T0 A0) as [Fu0 [_ Lr]].
    assert (Pts : pts = map ends l ++ [ends (if b then r else flip e)]).
    { destruct Fu0 as [_ [_ [_ [_ Fb]]]]. destruct b; destruct End as [[X Y]|[X Y]]; [rewrite Fb in X; contradiction|exact Y|exact Y|destruct Fb as [_ Fb]; rewrite X in Fb; contradiction]. }
    assert (Ll : 0 < len l) by (unfold len; destruct l; [congruence|cbn [length]; lia]).
    replace (room <? len l + 1) with false by (symmetry; apply Z.ltb_ge; lia). replace (len l + 1 =? 0) with false by (symmetry; apply Z.eqb_neq; lia). replace (0 <? len l + 1) with true by (symmetry; apply Z.ltb_lt; lia).
    replace (inside nparts (Z.of_nat (length curves))) with true by (symmetry; apply inside_true; unfold len in Np; cbn [length] in Np; lia).
    destruct (IH (done ++ [(r, b)]) f t3 (room - (len l + 1)) (curves ++ [pts])) as [out [sad [-> [Ex' [Hs' Tr']]]]].
    + rewrite <- app_assoc. exact EP.
    + exact Pd.
    + rewrite last_of_snoc. cbn. destruct Al as [A1 [A2 _]]. split; [exact A1|exact A2].
    + cbn [length] in Lf. lia.
    + intros T A. apply (Det T A).
    + rewrite len_app. unfold len in *. cbn [length] in *. lia.
    + exact Hs3.
    + exists (pts :: out), sad. split; [rewrite <- app_assoc; reflexivity|]. split; [exact (ext_trans _ _ _ Ex Ex')|]. split; [exact Hs'|]. intros T A. constructor; [|exact (Tr' T A)]. exists l, e. split; [apply (Det T), (agree_ext imax _ _ _ Ex' A)|exact Pts].
Qed.
End Second.
End Passes.

(** The whole tracer on a mesh with at least one zone *)
From Coq Require Import Lia Sorting.Sorted.
From Verif Require Import M_Base M_Cntr L_Cntr1 L_Cntr2 L_Cntr3 L_Cntr4 L_Cntr5 L_Cntr6 L_Cntr7 L_Cntr8 L_Cntr10.

Section Whole.
Variables imax jmax : Z.
Variable above : Z -> bool.
Variable centre : Z -> Z -> Z -> Z -> bool.
Hypothesis I2 : 2 <= imax.
Hypothesis J2 : 2 <= jmax.
Notation nreg := (nreg imax jmax).
Notation ijmax := (ijmax imax jmax).
Notation high := (high imax above).
Notation ix := (ix imax).
Notation grid := (grid imax jmax).
Notation edge_ok := (edge_ok imax jmax).
Notation valid := (valid imax jmax).
Notation cut := (cut high).
Notation col := (col high).
Notation mk := (mk imax).
Notation pos := (pos imax).
Notation cnt := (cnt imax jmax).
Notation cellf := (cellf imax jmax above).
Notation tally := (tally imax jmax above).
Notation initb := (initb imax jmax above).
Notation agree := (agree imax).
Notation ends := (ends imax).
Notation full := (full imax jmax high).
Notation mean_of := (mean_of imax centre).
Notation flat := (flat imax).

Lemma cnt_step f q s : grid s -> pos s = q -> cnt (fun u => f u && (pos u <? q + 1))%bool = cnt (fun u => f u && (pos u <? q))%bool + b2z (f s).
Proof.
  intros G E. destruct (f s) eqn:Fs; cbn [b2z].
  - apply (cnt_less imax jmax I2 J2 _ _ s G).
    + rewrite Fs. apply Z.ltb_lt. lia.
    + rewrite Fs. apply Z.ltb_ge. lia.
    + intros u Gu N. f_equal. assert (pos u <> q) by (intro X; apply N, (pos_inj imax jmax I2); [exact Gu|exact G|congruence]). destruct (Z.ltb_spec (pos u) q), (Z.ltb_spec (pos u) (q + 1)); auto; lia.
  - rewrite Z.add_0_r. apply (cnt_ext imax jmax I2 J2). intros u Gu. destruct (site_eq_dec u s) as [->|N]; [rewrite Fs; reflexivity|]. f_equal. assert (pos u <> q) by (intro X; apply N, (pos_inj imax jmax I2); [exact Gu|exact G|congruence]). destruct (Z.ltb_spec (pos u) q), (Z.ltb_spec (pos u) (q + 1)); auto; lia.
Qed.
Lemma cnt_tally n : Z.of_nat n <= ijmax -> cnt (fun u => initb u && (pos u <? 4 * Z.of_nat n))%bool = tally n.
Proof.
  induction n as [|n IH]; intro Hn.
  - cbn [L_Cntr7.tally]. destruct (Z.lt_ge_cases 0 (cnt (fun u => initb u && (pos u <? 4 * Z.of_nat 0))%bool)) as [X|X]; [|pose proof (cnt_nonneg imax jmax (fun u => initb u && (pos u <? 4 * Z.of_nat 0))%bool); lia].
    exfalso. destruct (cnt_some imax jmax I2 J2 _ X) as [s [G Hs]]. apply andb_true_iff in Hs as [_ Hs]. apply Z.ltb_lt in Hs. pose proof (grid_ix imax jmax I2 J2 s G). unfold L_Cntr3.pos in Hs. pose proof (rank_range (sd s)). lia.
  - cbn [L_Cntr7.tally]. rewrite <- IH by lia. set (k := Z.of_nat n). assert (Bk : 0 <= k < ijmax) by lia. pose proof (Z.div_mod k imax ltac:(lia)) as DM. pose proof (Z.mod_pos_bound k imax ltac:(lia)) as MB.
    assert (DB : 0 <= k / imax < jmax) by (split; [apply Z.div_pos; lia|apply Z.div_lt_upper_bound; [lia|unfold M_Cntr.ijmax in Bk; lia]]).
    assert (Gk : forall dd, grid (mkS (k mod imax) (k / imax) dd)) by (intro dd; split; cbn; lia).
    assert (Ik : forall dd, ix (mkS (k mod imax) (k / imax) dd) = k) by (intro dd; unfold L_Cntr2.ix; cbn [sx sy]; lia).
    assert (Pk : forall dd, pos (mkS (k mod imax) (k / imax) dd) = 4 * k + rank dd) by (intro dd; unfold L_Cntr3.pos; rewrite Ik; reflexivity).
    replace (4 * Z.of_nat (S n)) with (4 * k + 3 + 1) by lia.
    rewrite (cnt_step initb (4 * k + 3) (mkS (k mod imax) (k / imax) Dn)) by (try apply Gk; apply Pk). replace (4 * k + 3) with (4 * k + 2 + 1) by lia.
    rewrite (cnt_step initb (4 * k + 2) (mkS (k mod imax) (k / imax) Up)) by (try apply Gk; apply Pk). replace (4 * k + 2) with (4 * k + 1 + 1) by lia.
    rewrite (cnt_step initb (4 * k + 1) (mkS (k mod imax) (k / imax) Le)) by (try apply Gk; apply Pk).
    rewrite (cnt_step initb (4 * k) (mkS (k mod imax) (k / imax) Ri)) by (try apply Gk; rewrite Pk; cbn; lia).
    unfold L_Cntr8.initb. rewrite !Ik. cbn [sd mark_of L_Cntr7.cellf c_i0 c_i1 c_j0 c_j1]. unfold marks. lia.
Qed.
Lemma cnt_all : cnt initb = tally (Z.to_nat ijmax).
Proof.
  assert (B0 : 0 <= ijmax) by (unfold M_Cntr.ijmax; nia). rewrite <- cnt_tally by lia. apply (cnt_ext imax jmax I2 J2). intros s G. rewrite Z2Nat.id by exact B0. replace (pos s <? 4 * ijmax) with true; [rewrite andb_true_r; reflexivity|]. symmetry. apply Z.ltb_lt. pose proof (grid_ix imax jmax I2 J2 s G). unfold L_Cntr3.pos. pose proof (rank_range (sd s)). lia.
Qed.
Lemma tally_bound n : tally n <= 4 * Z.of_nat n.
Proof. induction n as [|n IH]; [cbn; lia|]. cbn [L_Cntr7.tally]. assert (marks imax jmax above (Z.of_nat n) <= 4) by (unfold marks, b2z; destruct (mi0 _ _ _ _), (mi1 _ _ _ _), (mj0 _ _ _ _), (mj1 _ _ _ _); lia). lia. Qed.

Lemma start_inv mem : exists t, data_init imax jmax above mem = Ok t /\ inv imax jmax above initb t None [] [] /\ t_count t = tally (Z.to_nat ijmax).
Proof.
  destruct (data_init_ok imax jmax above ltac:(lia) ltac:(lia) mem) as [d [R [-> [Hd HR]]]]. set (n := tally (Z.to_nat ijmax)) in *. eexists. split; [reflexivity|]. split; [|reflexivity].
  assert (Mk : forall s, grid s -> mk d s = initb s). { intros s G. unfold L_Cntr2.mk, L_Cntr8.initb. rewrite Hd by (apply (grid_ix imax jmax I2 J2 s G)). destruct (sd s); reflexivity. }
  constructor; cbn [t_data t_saddle t_count t_edge0 t_left0 t_edge00].
  - intros x y Hx Hy. assert (B : 0 <= x + y * imax < ijmax) by (unfold M_Cntr.ijmax; nia). rewrite Hd by exact B. cbn [c_z c_ib c_jb with_done with_row L_Cntr7.cellf]. unfold zb, ibb, jbb. destruct (divmod imax ltac:(lia) x y Hx) as [-> ->]. replace (x + y * imax <? ijmax) with true by (symmetry; apply Z.ltb_lt; lia). auto.
  - split; reflexivity.
  - auto.
  - intros s G. apply init_start; assumption.
  - intros s G. rewrite Mk by exact G. auto.
  - intros s G Hs. left. rewrite Mk by exact G. exact Hs.
  - intros s G _ N. exfalso. apply N. exact I.
  - intros s [].
  - constructor.
  - intros s _ _ _ [].
  - unfold waiting. unfold n. rewrite <- cnt_all. apply (cnt_ext imax jmax I2 J2). intros s G. rewrite Mk by exact G. cbn. rewrite andb_true_r. reflexivity.
  - intros x O. unfold opnk, key in O. destruct O as [_ [[O1 O2] O]]. rewrite Hd in O by (unfold M_Cntr.ijmax; nia). discriminate.
  - intros k Hk. rewrite Hd by exact Hk. reflexivity.
  - intros _ C. destruct (HR ltac:(lia)) as [HR1 HR2]. exists (Z.to_nat R). rewrite Z2Nat.id by lia. assert (BR : 0 <= R * imax < ijmax) by (unfold M_Cntr.ijmax; nia). split.
    + rewrite Hd by exact BR. cbn. replace (n =? 0) with false by (symmetry; apply Z.eqb_neq; lia). rewrite Z.eqb_refl. reflexivity.
    + intros s G Ms. destruct (Z.le_gt_cases (R * imax) (ix s)) as [L|L]; [exact L|]. exfalso. pose proof (grid_ix imax jmax I2 J2 s G) as B. pose proof (tally_zero imax jmax above _ (ix s) HR2 ltac:(lia)) as M0. rewrite Mk in Ms by exact G. unfold L_Cntr8.initb in Ms. unfold marks in M0. destruct (sd s); cbn in Ms; rewrite Ms in M0; unfold b2z in M0; destruct (mi0 _ _ _ _), (mi1 _ _ _ _), (mj0 _ _ _ _), (mj1 _ _ _ _); lia.
  - intros s [].
  - left. auto.
  - intros e r _ [].
  - constructor.
  - intros q [].
  - intros T _. split; [intros x _ _ _ []|]. split; [intros x _ _ _ []|]. split; [exists []; split; [constructor|]; split; [constructor|intros q []]|]. intros x _ _ _ [].
Qed.

(** A traced curve: its start, whether it is closed, the sites crossed, where it arrives *)
Definition wcurve := (site * bool * list site * site)%type.
Definition w_full (T : Z * Z -> bool) (w : wcurve) : Prop := let '(r, b, l, e) := w in full T r b l e /\ valid r.
Definition w_keys (w : wcurve) : list (bool * Z * Z) := let '(r, b, l, e) := w in fkeys b l e.
Definition w_points (w : wcurve) : list (Z * Z) := let '(r, b, l, e) := w in map ends l ++ [ends (if b then r else flip e)].

Lemma closed_dec b : {b = true} + {b = false}. Proof. destruct b; auto. Qed.
Definition w_left (w : wcurve) : Prop := let '(r, b, l, e) := w in b = true -> col r = true.
Theorem trace_main_left fuel mem : 4 * (imax * jmax) + 2 < Z.of_nat fuel -> exists T W, cntr_trace imax jmax above centre fuel mem = Ok (map w_points W) /\ (forall p, exists d, T p = mean_of d (flat p)) /\ Forall (w_full T) W /\ Forall w_left W /\ NoDup (concat (map w_keys W)) /\
  forall x, edge_ok x -> cut x -> In (key x) (concat (map w_keys W)).
Proof.
  intro Hf. assert (Bij : imax * jmax >= 2 * imax) by nia. assert (Fi : nreg < Z.of_nat fuel) by (unfold M_Cntr.nreg; lia).
  assert (Fk : (length (all_keys imax jmax) + 2 < fuel)%nat) by (pose proof (all_keys_length imax jmax ltac:(lia) ltac:(lia)); lia).
  unfold cntr_trace. destruct (start_inv mem) as [t [Ei [I C]]]. assert (S0 : sadok imax centre (t_saddle t)). { destruct (data_init_ok imax jmax above ltac:(lia) ltac:(lia) mem) as [d [R [Ed _]]]. rewrite Ed in Ei. injection Ei as <-. intros k b Hk. discriminate. } rewrite Ei, bind_Ok.
  destruct (first_pass_ok imax jmax above centre I2 J2 initb fuel Fi Fk fuel t None [] [] 0 0 I) as [t' [D [P [E [E1 [F [E0 [L0 Cu]]]]]]]]; [rewrite C; pose proof (tally_bound (Z.to_nat ijmax)); unfold M_Cntr.ijmax in *; lia|].
  pose proof (first_sad imax jmax centre I2 _ _ _ _ _ _ _ _ E1 S0) as S1. rewrite E1.
  rewrite bind_Ok. change (len (@nil (site * bool))) with 0. change (total [] []) with 0. rewrite !Z.sub_0_r, !Z.add_0_l.
  destruct (agree_some imax (t_saddle t')) as [T1 A1].
  assert (LP : (length P <= length (all_keys imax jmax))%nat).
  { destruct (Cu T1 A1) as [_ [_ [[Q [FQ [NQ IQ]]] _]]]. assert (X : (length P <= length (concat Q))%nat).
    { clear - FQ. induction FQ as [|p ks P Q [l [e [[_ [_ [L _]]] ->]]] FQ IH]; [apply Nat.le_refl|]. cbn. rewrite app_length. assert (1 <= length (fkeys (snd p) l e))%nat; [|lia]. unfold fkeys. destruct (snd p); rewrite map_length, ?app_length; destruct l; cbn; try congruence; lia. }
    pose proof (NoDup_incl_length NQ IQ) as Y. assert (Z' : (length D <= length (all_keys imax jmax))%nat); [|lia]. apply NoDup_incl_length; [apply (f_dup _ _ _ _ _ _ _ _ F)|]. intros q Hq. destruct (f_cut _ _ _ _ _ _ _ _ F q Hq) as [x [<- [Ex _]]]. apply all_keys_in, Ex. }
  destruct (second_pass_ok imax jmax above centre I2 J2 initb (t_data t') D P E F fuel Fi Fk (sadok imax centre) (fun cl room s t t' n dn pts L H => zone_sad imax jmax centre I2 true cl room fuel t t' n dn pts (sd s) L H) (len P) P [] fuel t' (total D P) []) as [out [sad [-> [Ex [Sd Tr]]]]].
  - reflexivity.
  - reflexivity.
  - cbn. split; [exact E0|exact L0].
  - lia.
  - intros T A. apply kept_fits. destruct (Cu T A) as [_ [_ [K _]]]. exact K.
  - unfold len. cbn [length]. lia.
  - exact S1.
  - rewrite bind_Ok. cbn [app].
    assert (HT : exists T, agree sad T /\ forall p, exists d, T p = mean_of d (flat p)).
    { exists (fun p => match sad (flat p) with Some b => b | None => mean_of Le (flat p) end). split; [intros p b Hp; rewrite Hp; reflexivity|]. intro p. destruct (sad (flat p)) as [b|] eqn:Ep; [exact (Sd _ _ Ep)|exists Le; reflexivity]. }
    destruct HT as [T [A AT]]. specialize (Tr T A). assert (A' : agree (t_saddle t') T) by exact (agree_ext imax _ _ _ Ex A). destruct (Cu T A') as [CF [_ [[Q [FQ [NQ IQ]]] Ho]]].
    assert (Lo : Z.of_nat (length out) = len P) by (unfold len; f_equal; symmetry; clear - Tr; unfold traces in Tr; induction Tr; cbn; congruence). rewrite Lo, Z.eqb_refl.
    assert (Vr : forall r b, In (r, b) P -> valid r) by (intros r b Hr; apply (f_start _ _ _ _ _ _ _ _ F r); apply (in_map fst) in Hr; exact Hr).
    assert (Sr : forall r b, In (r, b) P -> start imax jmax above r) by (intros r b Hr; apply (f_start _ _ _ _ _ _ _ _ F r); apply (in_map fst) in Hr; exact Hr).
    assert (HW : exists W, out = map w_points W /\ Q = map w_keys W /\ Forall (w_full T) W /\ map (fun w => (fst (fst (fst w)), snd (fst (fst w)))) W = P).
    { clear - Tr FQ Vr. unfold traces in Tr. revert Q FQ. induction Tr as [|[r b] pts P out [l [e [Fu ->]]] Tr IH]; intros Q FQ; inversion FQ as [|? ks ? Q' [l' [e' [Fu' ->]]] FQ' E1 E2]; subst; [exists []; auto|].
      cbn [fst snd] in *. pose proof Fu' as [_ [H' [L' [N' X']]]]. destruct (full_det _ _ _ _ _ _ _ _ _ _ Fu H' L' N') as [-> ->]; [destruct b; [left; exact X'|right; apply X']|].
      destruct (IH ltac:(intros r' b' Hr'; apply (Vr r' b'); right; exact Hr') Q' FQ') as [W [-> [-> [FW PW]]]]. exists ((r, b, l, e) :: W). split; [reflexivity|]. split; [reflexivity|]. split; [constructor; [split; [exact Fu|apply (Vr r b); left; reflexivity]|exact FW]|]. cbn. f_equal. exact PW. }
    destruct HW as [W [-> [-> [FW PW]]]]. exists T, W. split; [reflexivity|]. split; [exact AT|]. split; [exact FW|].
    split.
    { rewrite Forall_forall in *. intros [[[r b] l] e] Hw. cbn. intro Hb. assert (Hr : In (r, b) P) by (rewrite <- PW; apply in_map_iff; exists (r, b, l, e); auto). destruct (Sr r b Hr) as [_ [_ [Q0|[_ Q0]]]]; [|exact Q0]. exfalso. apply Q0.
      destruct (FW _ Hw) as [[_ [Hl [Ll [_ X]]]] _]. rewrite Hb in X. subst e. apply (trail_end _ _ _ _ _ _ _ Hl Ll). }
    split; [exact NQ|].
    (* every cut edge is on a curve *)
    assert (Up : forall x, edge_ok x -> cut x -> col x = true -> In (key x) (concat (map w_keys W))).
    { intros x Ox Cx Bx. assert (Dx : In (key x) D).
      { (* go back along the curve *)
        destruct (valid_dec imax jmax (flip x)) as [Vf|Vf].
        - destruct (trail_full imax jmax high T (flip x) (cut_flip high x Cx) Vf) as [l [e [Hl [L [N En]]]]]. destruct En as [->|En].
          + (* closed *)
            assert (Hx : exists l', trail imax jmax high T x l' x /\ l' <> []).
            { exists (map flip (rev (tl (l ++ [flip x])))). pose proof (trail_back imax jmax high T (flip x) l (flip x) (cut_flip high x Cx) Hl) as X. rewrite flip_flip in X. split; [exact X|]. destruct l as [|z l]; [congruence|]. cbn. intro Y. apply (f_equal (@length site)) in Y. rewrite map_length, rev_length, app_length in Y. cbn in Y. lia. }
            destruct Hx as [l' [Hl' L']]. destruct (loop_mark imax jmax above I2 J2 T x l' Cx Bx Hl' L') as [u [Hu [Gu Iu]]]. pose proof (f_init _ _ _ _ _ _ _ _ F u Gu Iu) as Du.
            apply in_split in Hu as [p1 [p2 Ep]]. rewrite Ep in Hl'. pose proof Hl' as Hl2. apply trail_split in Hl' as [v [B1 B2]]. pose proof (trail_head _ _ _ _ _ _ _ _ B2) as Ev. subst v. destruct (trail_col _ _ _ _ _ _ _ B1 Cx) as [Cu1 [Bu1 _]]. apply (closedF_trail imax jmax high T D u (u :: p2) x CF Cu1 ltac:(congruence) B2 Du).
          + (* from the boundary *)
            destruct (trail_end _ _ _ _ _ _ _ Hl L) as [Oe Ve]. pose proof (trail_back imax jmax high T (flip x) l e (cut_flip high x Cx) Hl) as X. rewrite flip_flip in X. pose proof (cut_flip high e (trail_cut _ _ _ _ _ _ _ Hl (cut_flip high x Cx))) as Ce.
            destruct (trail_col _ _ _ _ _ _ _ X Ce) as [_ [Bc _]]. apply (closedF_trail imax jmax high T D (flip e) _ x CF Ce ltac:(congruence) X). apply (f_init _ _ _ _ _ _ _ _ F); [apply edge_grid, edge_flip, Oe|]. apply init_boundary; [exact I2|exact J2|exact Ve|exact Ce|rewrite flip_flip; exact En].
        - apply (f_init _ _ _ _ _ _ _ _ F); [apply edge_grid, Ox|]. apply init_boundary; auto. destruct (valid_one imax jmax x I2 J2 Ox) as [V|V]; [exact V|contradiction]. }
      destruct (Ho x Ox Cx Bx Dx) as [[r [b [l [e [Hr [Fu Kx]]]]]]|[A0 [l [CA [VA [NA [TA DA]]]]]]].
      - rewrite <- PW in Hr. apply in_map_iff in Hr as [[[[r' b'] l'] e'] [Ew Hw]]. cbn in Ew. injection Ew as -> ->. rewrite Forall_forall in FW. destruct (FW _ Hw) as [Fu' _]. pose proof Fu' as [_ [H' [L' [N' X']]]]. destruct (full_det _ _ _ _ _ _ _ _ _ _ Fu H' L' N') as [-> ->]; [destruct b; [left; exact X'|right; apply X']|]. apply in_concat. exists (w_keys (r, b, l, e)). split; [apply in_map, Hw|exact Kx].
      - exfalso. apply DA. apply (f_init _ _ _ _ _ _ _ _ F); [apply edge_grid, valid_edge, VA|]. apply init_boundary; auto. }
    intros x Ox Cx. destruct (col x) eqn:Bx; [apply Up; assumption|]. rewrite <- key_flip. apply Up; [apply edge_flip, Ox|apply cut_flip, Cx|rewrite col_flip by exact Cx; rewrite Bx; reflexivity].
Qed.
Theorem trace_main fuel mem : 4 * (imax * jmax) + 2 < Z.of_nat fuel -> exists T W, cntr_trace imax jmax above centre fuel mem = Ok (map w_points W) /\ (forall p, exists d, T p = mean_of d (flat p)) /\ Forall (w_full T) W /\ NoDup (concat (map w_keys W)) /\
  forall x, edge_ok x -> cut x -> In (key x) (concat (map w_keys W)).
Proof. intro Hf. destruct (trace_main_left fuel mem Hf) as [T [W [A [B [C [_ D]]]]]]. exists T, W. auto. Qed.
End Whole.

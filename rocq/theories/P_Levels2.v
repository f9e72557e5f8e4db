(** C108, C109, C111: the steps and the levels given to a run *)
From Coq Require Import Lia Permutation.
From Verif Require Import M_Base M_Tables M_Area M_Eddy M_Detect M_Cntr M_Extract M_Window M_Pipeline M_Arguments S_Cntr S_Tracking S_Levels S_Detect S_Pipeline S_Process
  L_Base L_Levels L_Levels2 L_Levels3 L_Track L_Step L_Run L_Run2 L_TrackProps L_Detect3 L_Detect4 L_Pipeline L_Witness L_Window4 P_Cntr P_Detect P_Levels P_Tracking P_Pipeline P_Process.
Open Scope Z_scope.

(** *** C108 *)
(** With an end of the range, the steps that have rows are exactly the steps of the range that have eddies. *)
Theorem C108_start_and_end_partial : forall o hav levels nt st t0 tf files R, query_ok hav (t_query o) -> five_fitted o -> process st -> 0 <= t0 -> tf <> 0 ->
  run_returns o levels nt true st t0 tf files R ->
  forall t, (exists r, In r (rows R) /\ r_time r = t) <-> t0 <= t < tf /\ has_eddies o levels t.
Proof.
  intros o hav levels nt st t0 tf files R Hq H5 Hp H0 Hn H t. pose proof (run_snapshots _ _ _ _ _ _ _ _ _ H5 Hp Hn H) as Sn. unfold run_returns in H.
  destruct (tracking o t0 (Some tf) (Some levels) nt true st) as [out st'] eqn:E. cbn [fst] in H. subst out.
  assert (E2 := E). apply (f_equal fst) in E2. cbn [fst] in E2. rewrite tracking_time in E2 by assumption. unfold time_tracking, tt_times in E2. destruct (Z.eqb_spec tf 0); [contradiction|].
  assert (G : Forall (L_Run.good (detect_of o (Some levels))) (zrange t0 tf)) by (apply Forall_forall; intros s _ g Hg; apply (detect_facts _ _ _ _ H5 Hg)).
  destruct (L_Run.run_inv hav (t_query o) Hq (t_keep o) (detect_of o (Some levels)) (t_out_format o) (Some tf) nt _ _ _ _ _ (zrange_NoDup t0 tf) G (or_introl eq_refl) E2) as (_ & _ & _ & lab & P). cbn [rows empty_frame app] in P.
  split.
  - intros (r & Hr & <-). apply (Permutation_in _ P) in Hr. apply in_flat_map in Hr as (s & Hs & Hr). unfold L_Run.labelled, L_Run.snap_rows in Hr. apply in_map_iff in Hr as (r0 & <- & Hr0). cbn [r_time with_id at_time].
    apply in_range in Hs. split; [exact Hs|]. apply has_eddies_at; [exact H5|lia|]. destruct (Sn s Hs) as (g & Hg & _). rewrite Hg in Hr0. exists g. split; [exact Hg|]. intro Z. rewrite Z in Hr0. destruct Hr0.
  - intros [Ht He]. apply has_eddies_at in He; [|exact H5|lia]. destruct He as (g & Hg & N). destruct (rows g) as [|r0 l] eqn:Er; [contradiction|].
    exists (with_id (at_time t r0) (lab t (r_id r0))). split; [|reflexivity]. apply (Permutation_in _ (Permutation_sym P)), in_flat_map. exists t. split; [apply in_range; exact Ht|].
    unfold L_Run.labelled, L_Run.snap_rows. rewrite Hg, Er. left. reflexivity.
Qed.
Print Assumptions C108_start_and_end_partial.
(** Without an end the first step asked for is ignored: the result is the same for every t0, and rows of earlier steps are in it. *)
Theorem C108_start_without_end_refuted :
  (forall o t0 t0' tf levels nt online st, tf = None \/ tf = Some 0 -> tracking o t0 tf levels nt online st = tracking o t0' tf levels nt online st) /\
  exists o hav levels t0 files R st', query_ok hav (t_query o) /\ five_fitted o /\ tracking o t0 None (Some levels) 5 true initial_state = ((files, Ok R), st') /\ exists r, In r (rows R) /\ r_time r < t0.
Proof.
  split.
  - intros o t0 t0' tf levels nt online st H. unfold tracking, times, tt_times. destruct H as [->| ->]; reflexivity.
  - set (o := ex_tracker [spots [(3, 3)]; spots []]). exists o, demo_hav, [Num (1 # 2)], 1.
    assert (B : brief (fst (tracking o 1 None (Some [Num (1 # 2)]) 5 true initial_state)) = Ok (eddy_labels 0 0)) by (vm_compute; reflexivity).
    destruct (tracking o 1 None (Some [Num (1 # 2)]) 5 true initial_state) as [[files [R|e]] st']; [|discriminate]. exists files, R, st'.
    split; [exact demo_ok|]. split; [apply ex_five|]. split; [reflexivity|]. unfold brief in B. cbn [fst snd bind] in B. injection B as B. destruct (rows R) as [|r l]; [discriminate|]. cbn [map] in B. injection B as _ B _ _. exists r. split; [left; reflexivity|lia].
Qed.
Print Assumptions C108_start_without_end_refuted.
Example C108_case : let o := ex_tracker [spots []; spots [(3, 3)]; spots [(3, 4)]] in query_ok demo_hav (t_query o) /\ five_fitted o /\ process initial_state /\
  exists R, run_returns o ex_levels 5 true initial_state 0 2 [] R /\ has_eddies o ex_levels 1 /\ length (rows R) = 13%nat.
Proof.
  cbv zeta. set (o := ex_tracker _). split; [exact demo_ok|]. split; [apply ex_five|]. split; [apply started|]. eexists. split; [apply returns_of; [eexists|]; vm_compute; reflexivity|]. split; [eapply ex_step; [eexists|]; vm_compute; reflexivity|]. vm_compute. reflexivity.
Qed.

(** *** C109 *)
(** Levels given as a list or a tuple: no run with a step to analyse returns, whatever the data; the same levels in an array give a table. *)
Theorem C109_list_of_levels_refuted :
  (forall o t0 tf l nt online st, run_steps o t0 tf <> [] -> exists e, tracking_given o t0 tf (Sequence l) nt online st = (([], Err e), st)) /\
  exists o l, brief (fst (tracking_given o 0 (Some 2) (Array l) 5 true initial_state)) = Ok (eddy_labels 0 0 ++ eddy_labels 0 1 ++ eddy_labels 1 1)%list /\
    tracking_given o 0 (Some 2) (Sequence l) 5 true initial_state = (([], Err TypeError), initial_state).
Proof.
  split.
  - intros o t0 tf l nt online st H. unfold tracking_given. destruct (times o t0 tf) as [ts|e] eqn:E; [|eauto]. destruct (times_steps _ _ _ _ E) as [-> _]. destruct (run_steps o t0 tf) as [|t ts]; [contradiction|].
    unfold sequence_snapshot. destruct l as [|a [|b l]]; try (eexists; reflexivity). destruct (data2track o t); eexists; reflexivity.
  - exists (ex_tracker ex_data), [Num 0; Num (1 # 2)]. split; vm_compute; reflexivity.
Qed.
Print Assumptions C109_list_of_levels_refuted.

(** *** C111 *)
(** A rectangular field on the grid of the object, at least two points each way *)
Definition on_grid (o : tracker) (f : grid num) : Prop :=
  let same {A} (g : grid A) := length g = length f /\ forall row, In row g -> length row = width_of f in
  (2 <= length f)%nat /\ (2 <= width_of f)%nat /\ same f /\ same (t_X o) /\ same (t_Y o).
(** No value of the field is greater than the level, or all are (a missing value is not) *)
Definition greater (v level : num) : Prop := exists a b, v = Num a /\ level = Num b /\ (b < a)%Q.
Definition not_reached (f : grid num) (level : num) : Prop :=
  (forall row v, In row f -> In v row -> ~ greater v level) \/ (forall row v, In row f -> In v row -> greater v level).

Lemma ngt_greater v l : ngt v l = true <-> greater v l.
Proof.
  unfold greater, ngt, nlt. destruct v as [|a], l as [|b]; try (split; [discriminate|intros (x & y & A & B & _); discriminate]).
  split.
  - intro H. exists a, b. split; [reflexivity|]. split; [reflexivity|]. apply Bool.negb_true_iff in H. destruct (Qlt_le_dec b a) as [L|L]; [exact L|]. apply Qle_bool_iff in L. congruence.
  - intros (x & y & A & B & H). injection A as ->. injection B as ->. apply Bool.negb_true_iff. destruct (Qle_bool x y) eqn:E; [|reflexivity]. apply Qle_bool_iff in E. exfalso. exact (Qlt_not_le _ _ H E).
Qed.
Lemma concat_rect {A} (g : grid A) w : (forall row, In row g -> length row = w) -> length (List.concat g) = (length g * w)%nat.
Proof. induction g as [|r g IH]; intro H; [reflexivity|]. cbn [List.concat length Nat.mul]. rewrite app_length, (H r (or_introl eq_refl)), IH; [reflexivity|]. intros row Hr. apply H. right. exact Hr. Qed.
Lemma width_same {A} (g : grid A) h w : (0 < h)%nat -> length g = h -> (forall row, In row g -> length row = w) -> width_of g = w.
Proof. destruct g as [|r g]; cbn [length]; [lia|]. intros _ _ H. apply (H r). left. reflexivity. Qed.
(** No side of the mesh is crossed by such a level *)
Lemma not_crossed o f level e : on_grid o f -> not_reached f level -> side (width f) (height f) e -> crossed (value_above f level) e -> False.
Proof.
  intros (H2 & W2 & (_ & Rf) & _) N S C. destruct e as [p q]. destruct S as (Mp & Mq & _). apply C. cbn [fst snd].
  assert (V : forall k, S_Cntr.in_mesh (width f) (height f) k -> exists row v, In row f /\ In v row /\ nth (Z.to_nat k) (List.concat f) NaN = v).
  { intros k [K0 K1]. assert (L : (Z.to_nat k < length (List.concat f))%nat) by (rewrite (concat_rect f (width_of f) Rf); unfold width, height in K1; nia).
    pose proof (nth_In (List.concat f) NaN L) as I. apply in_concat in I as (row & A & B). eauto. }
  destruct (V p Mp) as (r & v & A & B & E), (V q Mq) as (r' & v' & A' & B' & E'). unfold value_above. rewrite E, E'. destruct N as [N|N].
  - rewrite (proj1 (Bool.not_true_iff_false _) (fun H => N r v A B (proj1 (ngt_greater _ _) H))), (proj1 (Bool.not_true_iff_false _) (fun H => N r' v' A' B' (proj1 (ngt_greater _ _) H))). reflexivity.
  - rewrite (proj2 (ngt_greater _ _) (N r v A B)), (proj2 (ngt_greater _ _) (N r' v' A' B')). reflexivity.
Qed.
Lemma no_lines o f level : on_grid o f -> not_reached f level -> contours_at o (Some f) level = Ok [].
Proof.
  intros G N. assert (G' := G). destruct G' as (H2 & W2 & (_ & Rf) & (LX & RX) & LY & RY).
  assert (Wx : width_of (numbers (t_X o)) = width_of f).
  { apply (width_same _ (length f)); [lia|unfold numbers; rewrite map_length; exact LX|]. intros row Hr. unfold numbers in Hr. apply in_map_iff in Hr as (r0 & <- & Hr). rewrite map_length. apply RX, Hr. }
  assert (Wy : width_of (numbers (t_Y o)) = width_of f).
  { apply (width_same _ (length f)); [lia|unfold numbers; rewrite map_length; exact LY|]. intros row Hr. unfold numbers in Hr. apply in_map_iff in Hr as (r0 & <- & Hr). rewrite map_length. apply RY, Hr. }
  assert (E : exists cs, contours_at o (Some f) level = Ok cs).
  { unfold contours_at. destruct (Nat.eqb_spec (length f) 1); [lia|]. destruct (Nat.eqb_spec (width_of f) 1); [lia|]. cbn [orb]. unfold lines.
    assert (M : meshed (array_of (numbers (t_X o))) (array_of (numbers (t_Y o))) (array_of f)).
    { repeat split; cbn [array_of m_rows m_cols]; unfold numbers in *; rewrite ?Wx, ?Wy, ?map_length, ?LX, ?LY; lia. }
    assert (F : enough (array_of f) (rounds (array_of f))) by (unfold enough, rounds; cbn [array_of m_rows m_cols]; rewrite Z2Nat.id; nia).
    destruct (master num (f_add (t_flops o)) (f_sub (t_flops o)) (f_mul (t_flops o)) (f_div (t_flops o)) (f_cst (t_flops o) 4) ngt neqb (rounds (array_of f)) (t_garbage o (array_of f) level) _ _ _ level M F) as (T & curves & cd & E' & _).
    rewrite E'. eexists. reflexivity. }
  destruct E as (cs & E). destruct (contours_at_spec _ _ _ _ E) as (f' & Ef & (curves & Fc & -> & _) & _). injection Ef as <-. destruct curves as [|c curves]; [exact E|]. exfalso.
  apply Forall_inv in Fc. destruct Fc as [Lc Sc _ _]. destruct c as [|e c]; [cbn in Lc; lia|]. destruct (Sc e (or_introl eq_refl)) as [S C]. exact (not_crossed o f level e G N S C).
Qed.
Lemma nothing_found o f level st : on_grid o f -> not_reached f level -> detect_level o (Some f) level st = (Ok (empty_frame, []), st).
Proof. intros G N. unfold detect_level. rewrite (no_lines o f level G N). reflexivity. Qed.
Lemma loop_skip query keep det x ls : (forall st, det x st = (Ok (empty_frame, []), st)) -> forall l1 joint st,
  snapshot_loop query keep det joint (l1 ++ x :: ls)%list st = snapshot_loop query keep det joint (l1 ++ ls)%list st.
Proof.
  intros H l1. induction l1 as [|l l1 IH]; intros joint st; cbn [app snapshot_loop].
  - rewrite H. reflexivity.
  - destruct (det l st) as [[[cur d]|e] st']; [|reflexivity]. destruct (empty cur); [apply IH|]. destruct (empty joint); [apply IH|]. destruct (bind (detect_nearest query joint cur) _); [apply IH|reflexivity].
Qed.
Lemma loop_snapshots o ls ls' online tf nt ts : (forall t st, In t ts -> snapshot o ls t st = snapshot o ls' t st) ->
  forall track files st, loop o ls online tf nt ts track files st = loop o ls' online tf nt ts track files st.
Proof.
  induction ts as [|t ts IH]; intros H track files st; [reflexivity|]. cbn [loop]. rewrite (H t st (or_introl eq_refl)). assert (IH' := IH (fun s st' Hs => H s st' (or_intror Hs))).
  destruct (snapshot o ls' t st) as [[cur|e] st']; [|reflexivity]. destruct (empty cur); [apply IH'|]. destruct (empty track); [apply IH'|]. destruct online.
  - destruct (track_online _ _ _ _ _ _); [|reflexivity]. destruct (print_check tf t); [apply IH'|reflexivity].
  - destruct (store_effect _); [|reflexivity]. cbv zeta. destruct (print_check tf t); [apply IH'|reflexivity].
Qed.
(** A level that the fields never reach can be left out: same table, same files, same exceptions, same state of the process. *)
Theorem C111_levels_never_reached : forall o t0 tf l1 x l2 nt online st,
  (forall t, In t (run_steps o t0 tf) -> exists f, field_at o t f /\ on_grid o f /\ not_reached f x) ->
  tracking o t0 tf (Some (l1 ++ x :: l2)%list) nt online st = tracking o t0 tf (Some (l1 ++ l2)%list) nt online st.
Proof.
  intros o t0 tf l1 x l2 nt online st H. unfold tracking. destruct (times o t0 tf) as [ts|e] eqn:E; [|reflexivity]. destruct (times_steps _ _ _ _ E) as [-> _]. apply loop_snapshots. intros t s Ht.
  destruct (H t Ht) as (f & Hf & G & N). unfold snapshot. assert (D : data2track o t = Ok (Some f)).
  { destruct Hf as (g & Sg & Fg). unfold data2track. destruct (t_data o) as [l|g']; [rewrite (proj2 (select_selected l t g) Sg)|cbn in Sg; subst g']; exact Fg. }
  rewrite D. unfold detect_snapshot, nonzero_levels. rewrite !filter_app. cbn [filter]. destruct (negb (neqb x (Num 0))); [|reflexivity]. apply loop_skip. intro s'. apply nothing_found; assumption.
Qed.
Print Assumptions C111_levels_never_reached.
(** The eddies of [ex_data] have values 0 and 1: the level 3 is above, the level -1 below *)
Lemma spots_grid d cs : on_grid (ex_tracker d) (spots cs).
Proof.
  unfold on_grid. assert (T : forall A (h : nat -> nat -> A) row, In row (tabulate 12 12 h) -> length row = 12%nat).
  { intros A h row H. unfold tabulate in H. apply in_map_iff in H as (i & <- & _). rewrite map_length, seq_length. reflexivity. }
  split; [cbn; lia|]. split; [cbn; lia|]. repeat split; intros row Hr; apply T in Hr; exact Hr.
Qed.
Lemma spots_values cs row v : In row (spots cs) -> In v row -> v = Num 0 \/ v = Num 1.
Proof. intros H Hv. unfold spots, tabulate in H. apply in_map_iff in H as (i & <- & _). apply in_map_iff in Hv as (j & <- & _). destruct (existsb _ cs); auto. Qed.
Example C111_case : let o := ex_tracker ex_data in
  (forall t, In t (run_steps o 0 (Some 2)) -> exists f, field_at o t f /\ on_grid o f /\ not_reached f (Num 3)) /\
  (forall t, In t (run_steps o 0 (Some 2)) -> exists f, field_at o t f /\ on_grid o f /\ not_reached f (Num (-1))) /\
  brief (fst (tracking o 0 (Some 2) (Some [Num (-1); Num (1 # 2); Num 3]) 5 true initial_state)) = Ok (eddy_labels 0 0 ++ eddy_labels 0 1 ++ eddy_labels 1 1)%list.
Proof.
  cbv zeta. split; [|split; [|vm_compute; reflexivity]].
  - intros t Ht. cbn in Ht. assert (exists cs, field_at (ex_tracker ex_data) t (spots cs)) as (cs & F).
    { destruct Ht as [<-|[<-|[]]]; [exists [(3, 3)]|exists [(4, 3); (3, 7)]]; eexists; (split; [left; split; [lia|reflexivity]|reflexivity]). }
    exists (spots cs). split; [exact F|]. split; [apply spots_grid|]. left. intros row v A B (x & y & -> & E & L). injection E as <-. destruct (spots_values _ _ _ A B) as [V|V]; injection V as ->; discriminate L.
  - intros t Ht. cbn in Ht. assert (exists cs, field_at (ex_tracker ex_data) t (spots cs)) as (cs & F).
    { destruct Ht as [<-|[<-|[]]]; [exists [(3, 3)]|exists [(4, 3); (3, 7)]]; eexists; (split; [left; split; [lia|reflexivity]|reflexivity]). }
    exists (spots cs). split; [exact F|]. split; [apply spots_grid|]. right. intros row v A B. destruct (spots_values _ _ _ A B) as [->| ->]; eexists _, _; (split; [reflexivity|]; split; [reflexivity|]); reflexivity.
Qed.

(** *** C113 *)
(** Every eddy of the level has a positive radius and no other one within it *)
Definition separate (hav : Q * Q -> Q * Q -> Q) (N : list eddy) : Prop :=
  (forall e, In e N -> exists rad, eddy_radius e rad /\ (0 < rad)%Q) /\ forall i j e e', nth_error N i = Some e -> nth_error N j = Some e' -> i <> j -> ~ near hav e e'.
Lemma near_self hav N e : (forall p, (hav p p == 0)%Q) -> separate hav N -> Forall eddy_ok N -> In e N -> near hav e e.
Proof.
  intros Hh [S _] Ok He. rewrite Forall_forall in Ok. destruct (Ok e He) as (p & Hp). destruct (S e He) as (rad & Hr & Pr). exists p, p, rad. split; [exact Hp|]. split; [exact Hp|]. split; [exact Hr|]. rewrite Hh, Qmult_0_l. exact Pr.
Qed.
Lemma not_exceeds_self e : ~ exceeds e e.
Proof. intros (c & r & c' & r' & a & b & a' & b' & -> & E & A & A' & L & _). injection E as <- <-. rewrite A in A'. injection A' as <-. exact (Qlt_irrefl _ L). Qed.
Lemma combine_seq_nth {A} (l : list A) : forall s d n, In (d, n) (combine (seq s (length l)) l) -> nth_error l (d - s) = Some n.
Proof.
  induction l as [|x l IH]; intros s d n H; [destruct H|]. cbn [length seq combine] in H. destruct H as [H|H].
  - injection H as <- <-. rewrite Nat.sub_diag. reflexivity.
  - assert (S s <= d)%nat by (apply in_combine_l, in_seq in H; lia). apply IH in H. replace (d - s)%nat with (S (d - S s)) by lia. exact H.
Qed.
Lemma merged_self hav N J' : (forall p, (hav p p == 0)%Q) -> separate hav N -> Forall eddy_ok N -> merged hav N N J' -> J' = N.
Proof.
  intros Hh Sp Ok (link & kept & H1 & H2 & H3 & H4 & ->).
  assert (L : forall d n, nth_error N d = Some n -> link d = Some d).
  { intros d n Hd. destruct (link d) as [k|] eqn:El.
    - destruct (H1 d n k Hd El) as (j & Hj & Hn & _). destruct (Nat.eq_dec d k) as [->|Ne]; [reflexivity|]. exfalso. exact (proj2 Sp d k n j Hd Hj Ne Hn).
    - exfalso. assert (In n N) by (eapply nth_error_In; eauto). apply (H2 d n Hd El n); [assumption|eapply near_self; eauto]. }
  assert (K : kept = N).
  { apply nth_ext with (d := []) (d' := []); [exact H3|]. intros k Hk. rewrite H3 in Hk. destruct (nth_error N k) as [j|] eqn:Ej; [|apply nth_error_None in Ej; lia]. destruct (nth_error kept k) as [j'|] eqn:Ej'; [|apply nth_error_None in Ej'; lia].
    rewrite (nth_error_nth _ _ _ Ej), (nth_error_nth _ _ _ Ej'). destruct (H4 k j j' Ej Ej') as [(d & Hd & El & Ex)|[-> _]]; [|reflexivity]. rewrite (L d j' Hd) in El. injection El as ->. rewrite Hd in Ej. injection Ej as ->. reflexivity. }
  assert (F : filter (fun dn => match link (fst dn) with None => true | Some _ => false end) (combine (seq 0 (length N)) N) = []); [|rewrite F, K; apply app_nil_r].
  assert (G : forall l, (forall dn, In dn l -> exists k, link (fst dn) = Some k) -> filter (fun dn : nat * eddy => match link (fst dn) with None => true | Some _ => false end) l = []).
  { induction l as [|dn l IH]; intro H; [reflexivity|]. cbn [filter]. destruct (H dn (or_introl eq_refl)) as (k & ->). apply IH. intros x Hx. apply H. right. exact Hx. }
  apply G. intros [d n] Hdn. exists d. cbn [fst]. apply (L d n). apply combine_seq_nth in Hdn. rewrite Nat.sub_0_r in Hdn. exact Hdn.
Qed.
(** The extremum of the eddy of row r' lies within the radius of the eddy of row r *)
Definition within_radius (hav : Q * Q -> Q * Q -> Q) (r r' : row) : Prop :=
  exists p p' rad, maxima_y (r_cols r) = Num (fst p) /\ maxima_x (r_cols r) = Num (snd p) /\ maxima_y (r_cols r') = Num (fst p') /\ maxima_x (r_cols r') = Num (snd p') /\
    radius_eddy (r_cols r) = Num rad /\ (hav p p' * 6371 < rad)%Q.
(** The first row of an eddy *)
Definition first_of (R : frame) (r : row) : Prop := In r (rows R) /\ r_idx r = 0.
Lemma near_rows hav t N M Rn Rm i j e e' : rows Rn = map (at_time t) (table N) -> rows Rm = map (at_time t) (table M) -> nth_error N i = Some e -> nth_error M j = Some e' -> near hav e e' ->
  exists r r', first_of Rn r /\ first_of Rm r' /\ r_id r = Z.of_nat i /\ r_id r' = Z.of_nat j /\ within_radius hav r r'.
Proof.
  intros En Em Hi Hj (p & p' & rad & (c & q & Ec & A & B) & (c' & q' & Ec' & A' & B') & (c0 & q0 & E0 & C) & L). rewrite Ec in E0. injection E0 as <- <-.
  exists (at_time t (mkRow (Z.of_nat i) 0 0 c)), (at_time t (mkRow (Z.of_nat j) 0 0 c')). split; [split; [rewrite En; apply in_map; eapply table_first; eassumption|reflexivity]|]. split; [split; [rewrite Em; apply in_map; eapply table_first; eassumption|reflexivity]|].
  split; [reflexivity|]. split; [reflexivity|]. exists p, p', rad. cbn [r_cols at_time]. auto 7.
Qed.
Theorem C113_repeated_level_partial : forall o hav t x R, query_ok hav (t_query o) -> five_fitted o -> 0 <= t -> (forall p, (hav p p == 0)%Q) ->
  alone o [x] t R ->
  (forall r, first_of R r -> exists rad, radius_eddy (r_cols r) = Num rad /\ (0 < rad)%Q) -> (forall r r', first_of R r -> first_of R r' -> r_id r <> r_id r' -> ~ within_radius hav r r') ->
  exists R', alone o [x; x] t R' /\ rows R' = rows R.
Proof.
  intros o hav t x R Hq H5 Ht Hh H Hrad Hapart. destruct (alone_inv _ _ _ _ H5 Ht H) as (g & Hg & Er).
  assert (K : exists g', detect_of o (Some [x; x]) t = Ok g' /\ rows g' = rows g).
  { unfold detect_of, snapshot in *. destruct (data2track o t) as [d|] eqn:Ed; [|discriminate]. unfold detect_snapshot in *. unfold nonzero_levels in *. cbn [filter] in *. destruct (negb (neqb x (Num 0))); [|exists g; auto].
    cbn [snapshot_loop] in *. assert (S1 := detect_level_spec o H5 d x initial_state settled_initial). assert (I := fun st => detect_level_indep o H5 d x st).
    destruct (detect_level o d x initial_state) as [[[cur D]|e] st1]; [|discriminate]. destruct S1 as (Hs1 & N & HN & ->). specialize (I st1 Hs1). cbn [fst same_result] in I.
    destruct (detect_level o d x st1) as [[[cur2 D2]|e2] st2]; [|contradiction]. cbn [fst same_result] in I. subst cur2.
    assert (HF : found_at o t x N). { destruct HN as (f & cs & fs & -> & B & C & _ & ->). exists f, (settings o f x), cs, fs. split; [apply data2track_field, Ed|]. split; [apply settings_ok|]. auto. }
    assert (Hok := found_ok _ _ _ _ HF). cbn [empty empty_frame rows] in *. destruct (empty (level_table N)) eqn:Ee.
    - exists g. auto.
    - cbn [fst] in Hg. injection Hg as <-.
      assert (Sp : separate hav N).
      { split.
        - intros e He. rewrite Forall_forall in Hok. destruct (Hok e He) as (p & c & q & Ec & _). apply In_nth_error in He as (k & Hk). destruct (Hrad (at_time t (mkRow (Z.of_nat k) 0 0 c))) as (rad & A & B).
          + split; [rewrite Er; apply in_map, (table_first N k e c q Hk Ec)|reflexivity].
          + exists rad. split; [exists c, q; auto|exact B].
        - intros i j e e' Hi Hj Ne Hn. destruct (near_rows hav t N N R R i j e e' Er Er Hi Hj Hn) as (r & r' & A & B & C & C' & W). apply (Hapart r r' A B); [lia|exact W]. }
      destruct (one_level hav (t_query o) Hq (t_keep o) N N (length N) [] Hok Hok (le_n _)) as (J' & L' & Hm & _ & Hl).
      { intros a b n n' k j Hab Ha Hb Hk Na Nb. destruct (Nat.eq_dec a k) as [->|Nk]; [apply (proj2 Sp b k n' j Hb Hk); [congruence|exact Nb]|exact (proj2 Sp a k n j Ha Hk Nk Na)]. }
      apply merged_self in Hm; [|assumption|assumption|assumption]. subst J'. change (mkFrame (table N) (zseq (length N))) with (level_table N) in Hl. cbn [level_loop bind] in Hl. rewrite Ee in Hl.
      destruct (do (index, nearest) <- detect_nearest (t_query o) (level_table N) (level_table N); do (j, c) <- update_better_eddy (level_table N) (level_table N) index nearest; merge_reindex (t_keep o) j c) as [m|e] eqn:E.
      + exists m. split; [reflexivity|]. destruct (detect_nearest _ _ _) as [[ix nr]|]; [|discriminate]. cbn [bind] in *. destruct (update_better_eddy _ _ _ _) as [[j c]|]; [|discriminate]. cbn [bind] in *. rewrite E in Hl. cbn [bind] in Hl. injection Hl as ->. reflexivity.
      + exfalso. destruct (detect_nearest _ _ _) as [[ix nr]|]; [|discriminate]. cbn [bind] in *. destruct (update_better_eddy _ _ _ _) as [[j c]|]; [|discriminate]. cbn [bind] in *. rewrite E in Hl. discriminate. }
  destruct K as (g' & Hg' & Er'). destruct (alone_of _ _ _ _ H5 Ht Hg') as (R' & A & B). exists R'. split; [exact A|]. rewrite B, Er', Er. reflexivity.
Qed.
Print Assumptions C113_repeated_level_partial.
(** Eddies of radius 0 (the area of a small contour near 0E 0N is computed as 0, C98) are reported once for every time the level is given. *)
Definition dot_tracker (d : list (grid num)) : tracker :=
  let o := ex_tracker d in let F := ex_flops in
  mkTracker (t_data o) (t_X o) (t_Y o) (t_filter o)
    (mkFops num (f_cst F) (f_pi F) (f_add F) (f_sub F) (f_mul F) (f_div F) (f_mod F) (f_sin F) (f_cos F) (lift1 (fun _ => 0%Q)) (f_abs F) (f_atan2 F))
    (t_rossby o) (t_fit_ellipse o) (t_eccentricity o) (t_similarity o) (t_surface o) (t_tree o) (t_query o) (t_keep o) (t_garbage o) (t_criteria o) (t_skip_gaussian_fit o) (t_out_format o).
Lemma demo_self p : (demo_hav p p == 0)%Q.
Proof. unfold demo_hav. assert (E : forall a, (Qabs (a - a) == 0)%Q) by (intro a; setoid_replace (a - a)%Q with 0%Q by ring; reflexivity). rewrite !E. reflexivity. Qed.
Theorem C113_repeated_level_refuted : exists o hav x R R', query_ok hav (t_query o) /\ five_fitted o /\ (forall p, (hav p p == 0)%Q) /\
  alone o [x] 0 R /\ alone o [x; x] 0 R' /\ rows R <> [] /\ length (rows R') = (2 * length (rows R))%nat.
Proof.
  exists (dot_tracker [spots [(3, 3)]]), demo_hav, (Num (1 # 2)). eexists _, _.
  split; [exact demo_ok|]. split; [intros f level c g s H; exact (ex_five [] f level c g s H)|]. split; [apply demo_self|].
  split; [apply returns_of; [eexists|]; vm_compute; reflexivity|]. split; [apply returns_of; [eexists|]; vm_compute; reflexivity|]. split; [intro H; vm_compute in H; discriminate H|vm_compute; reflexivity].
Qed.
Print Assumptions C113_repeated_level_refuted.
Lemma firsts_check (R : frame) (P : row -> Prop) (b : row -> bool) : (forall r, b r = true -> P r) -> forallb (fun r => negb (r_idx r =? 0) || b r) (rows R) = true -> forall r, first_of R r -> P r.
Proof. intros H E r [Hr H0]. rewrite forallb_forall in E. specialize (E r Hr). cbv beta in E. rewrite H0 in E. apply H, E. Qed.
Definition apart_b (skip : row -> row -> bool) (R R' : frame) : bool := forallb (fun r => forallb (fun r' => negb (r_idx r =? 0) || negb (r_idx r' =? 0) || skip r r' ||
     match maxima_y (r_cols r), maxima_x (r_cols r), maxima_y (r_cols r'), maxima_x (r_cols r'), radius_eddy (r_cols r) with Num a, Num b, Num c, Num d, Num rad => Qle_bool rad (demo_hav (a, b) (c, d) * 6371) | _, _, _, _, _ => true end) (rows R')) (rows R).
Lemma apart_check (R R' : frame) (skip : row -> row -> bool) : apart_b skip R R' = true -> forall r r', first_of R r -> first_of R' r' -> skip r r' = false -> ~ within_radius demo_hav r r'.
Proof.
  intros E r r' [Hr H0] [Hr' H0'] Hi (p & p' & rad & A & B & C & D & F & L). unfold apart_b in E. rewrite forallb_forall in E. specialize (E r Hr). cbv beta in E. rewrite forallb_forall in E. specialize (E r' Hr'). cbv beta in E.
  rewrite H0, H0', A, B, C, D, F, Hi in E. cbn [Z.eqb negb orb] in E. apply Qle_bool_iff in E. destruct p, p'. cbn [fst snd] in *. exact (Qlt_not_le _ _ L E).
Qed.
(** Two eddies at one level *)
Example C113_case : let o := ex_tracker [spots [(3, 3); (3, 7)]] in query_ok demo_hav (t_query o) /\ five_fitted o /\ (forall p, (demo_hav p p == 0)%Q) /\
  exists R, alone o [Num (1 # 2)] 0 R /\ map r_id (rows R) = (repeat 0 13 ++ repeat 1 13)%list /\ (forall r, first_of R r -> exists rad, radius_eddy (r_cols r) = Num rad /\ (0 < rad)%Q) /\ (forall r r', first_of R r -> first_of R r' -> r_id r <> r_id r' -> ~ within_radius demo_hav r r').
Proof.
  cbv zeta. set (o := ex_tracker _). split; [exact demo_ok|]. split; [apply ex_five|]. split; [apply demo_self|].
  assert (A : exists R, alone o [Num (1 # 2)] 0 R /\ map r_id (rows R) = (repeat 0 13 ++ repeat 1 13)%list /\ forallb (fun r => negb (r_idx r =? 0) || neqb (radius_eddy (r_cols r)) (Num 300)) (rows R) = true /\ apart_b (fun r r' => r_id r =? r_id r') R R = true).
  { eexists. split; [apply returns_of; [eexists|]; vm_compute; reflexivity|]. split; [vm_compute; reflexivity|]. split; vm_compute; reflexivity. }
  destruct A as (R & A & B & C & D). exists R. split; [exact A|]. split; [exact B|]. split.
  - refine (firsts_check R _ (fun r => neqb (radius_eddy (r_cols r)) (Num 300)) _ C). intros r Hr. destruct (radius_eddy (r_cols r)) as [|q]; [discriminate|]. exists q. split; [reflexivity|]. apply Qeq_bool_iff in Hr. rewrite Hr. reflexivity.
  - intros r r' Fr Fr' Ne. refine (apart_check R R _ D r r' Fr Fr' _). apply Z.eqb_neq. exact Ne.
Qed.

(** *** C114 *)
(** No eddy of a level lies within the radius of an eddy of another level, or the other way round *)
Definition far_levels (hav : Q * Q -> Q * Q -> Q) (NS : list (list eddy)) : Prop :=
  forall i j N M e e', i <> j -> nth_error NS i = Some N -> nth_error NS j = Some M -> In e N -> In e' M -> ~ near hav e e'.
Lemma merged_far hav J N : (forall e e', In e N -> In e' J -> ~ near hav e e') -> forall J', merged hav J N J' -> J' = (J ++ N)%list.
Proof.
  intros F J' (link & kept & H1 & H2 & H3 & H4 & ->).
  assert (L : forall d n, nth_error N d = Some n -> link d = None).
  { intros d n Hd. destruct (link d) as [k|] eqn:El; [|reflexivity]. exfalso. destruct (H1 d n k Hd El) as (j & Hj & Hn & _). exact (F n j (nth_error_In _ _ Hd) (nth_error_In _ _ Hj) Hn). }
  f_equal.
  - apply nth_ext with (d := []) (d' := []); [exact H3|]. intros k Hk. rewrite H3 in Hk. destruct (nth_error J k) as [j|] eqn:Ej; [|apply nth_error_None in Ej; lia]. destruct (nth_error kept k) as [j'|] eqn:Ej'; [|apply nth_error_None in Ej'; lia].
    rewrite (nth_error_nth _ _ _ Ej), (nth_error_nth _ _ _ Ej'). destruct (H4 k j j' Ej Ej') as [(d & Hd & El & _)|[-> _]]; [|reflexivity]. rewrite (L d j' Hd) in El. discriminate.
  - assert (G : forall l, (forall dn, In dn l -> link (fst dn) = None) -> filter (fun dn : nat * eddy => match link (fst dn) with None => true | Some _ => false end) l = l).
    { induction l as [|dn l IH]; intro H; [reflexivity|]. cbn [filter]. rewrite (H dn (or_introl eq_refl)). f_equal. apply IH. intros x Hx. apply H. right. exact Hx. }
    rewrite G, combine_seq_snd; [reflexivity|]. intros [d n] Hdn. apply combine_seq_nth in Hdn. rewrite Nat.sub_0_r in Hdn. apply (L d n Hdn).
Qed.
Lemma far_safe hav NS : forall J, (forall N e e', In N NS -> In e N -> In e' J -> ~ near hav e e') -> far_levels hav NS -> safe hav J NS /\ forall E, scanned hav J NS E -> E = (J ++ List.concat NS)%list.
Proof.
  induction NS as [|N NS IH]; intros J HJ F; cbn [safe scanned List.concat]; [split; [exact I|intros E ->; rewrite app_nil_r; reflexivity]|].
  assert (M : forall J', merged hav J N J' -> J' = (J ++ N)%list) by (apply merged_far; intros e e' A B; exact (HJ N e e' (or_introl eq_refl) A B)).
  assert (X : safe hav (J ++ N) NS /\ forall E, scanned hav (J ++ N) NS E -> E = ((J ++ N) ++ List.concat NS)%list).
  { apply IH.
    - intros N' e e' HN' He He'. apply in_app_or in He' as [He'|He']; [exact (HJ N' e e' (or_intror HN') He He')|]. apply In_nth_error in HN' as (i & Hi). exact (F (S i) O N' N e e' (Nat.neq_succ_0 i) Hi eq_refl He He').
    - intros i j A B e e' Hij Hi Hj. exact (F (S i) (S j) A B e e' (fun H => Hij (Nat.succ_inj _ _ H)) Hi Hj). }
  split; [split|].
  - intros d d' n n' k j _ Hd _ Hk Hn _. exact (HJ N n j (or_introl eq_refl) (nth_error_In _ _ Hd) (nth_error_In _ _ Hk) Hn).
  - intros J' Hm. rewrite (M J' Hm). apply X.
  - intros E (J' & Hm & Hs). rewrite (M J' Hm) in Hs. rewrite (proj2 X E Hs), app_assoc. reflexivity.
Qed.
Lemma far_perm hav NS NS' : Permutation NS NS' -> far_levels hav NS -> far_levels hav NS'.
Proof.
  intros P F i j N M e e' Hij Hi Hj. apply Permutation_nth_error in P as (L & f & inj & P). rewrite P in Hi, Hj. apply (F (f i) (f j) N M e e'); [|exact Hi|exact Hj]. intro H. apply Hij, inj, H.
Qed.
Section Given.
Variable o : tracker.
Hypothesis H5 : five_fitted o.
Definition given (d : option (grid num)) (x : num) (N : list eddy) : Prop := found_in o d x N /\ exists D s, detect_level o d x initial_state = (Ok (level_table N, D), s).
Lemma snapshot_given d ls NS : Forall2 (given d) ls NS -> forall joint st, settled st ->
  fst (snapshot_loop (t_query o) (t_keep o) (detect_level o d) joint ls st) = level_loop (t_query o) (t_keep o) joint (map (fun N => Ok (level_table N)) NS).
Proof.
  induction 1 as [|x N ls NS (_ & D & s & E) _ IH]; intros joint st Hs; [reflexivity|]. cbn [snapshot_loop map level_loop bind].
  assert (I := detect_level_indep o H5 d x st Hs). assert (Sp := detect_level_spec o H5 d x st Hs). rewrite E in I. destruct (detect_level o d x st) as [[[cur D']|e] st']; cbn [fst same_result] in I; [|contradiction]. subst cur. destruct Sp as (Hs' & _).
  destruct (empty (level_table N)); [apply IH, Hs'|]. destruct (empty joint); [apply IH, Hs'|].
  destruct (detect_nearest (t_query o) joint (level_table N)) as [[ix nr]|e]; cbn [bind]; [|reflexivity]. destruct (update_better_eddy joint (level_table N) ix nr) as [[j c]|e]; cbn [bind]; [|reflexivity]. destruct (merge_reindex (t_keep o) j c); cbn [bind]; [apply IH, Hs'|reflexivity].
Qed.
Lemma given_of d ls : forall joint st g st', settled st -> snapshot_loop (t_query o) (t_keep o) (detect_level o d) joint ls st = (Ok g, st') -> exists NS, Forall2 (given d) ls NS.
Proof.
  induction ls as [|x ls IH]; intros joint st g st' Hs H; [exists []; constructor|]. cbn [snapshot_loop] in H.
  assert (I := detect_level_indep o H5 d x st Hs). assert (Sp := detect_level_spec o H5 d x st Hs). destruct (detect_level o d x st) as [[[cur D']|e] st1]; [|discriminate]. destruct Sp as (Hs' & N & HN & ->). cbn [fst] in I.
  destruct (detect_level o d x initial_state) as [[[cur0 D0]|e0] s0] eqn:E0; cbn [fst same_result] in I; [|contradiction]. subst cur0.
  assert (K : exists j, snapshot_loop (t_query o) (t_keep o) (detect_level o d) j ls st1 = (Ok g, st')).
  { destruct (empty (level_table N)); [eauto|]. destruct (empty joint); [eauto|]. destruct (do (index, nearest) <- detect_nearest (t_query o) joint (level_table N); _) as [m|]; [eauto|discriminate]. }
  destruct K as (j & K). destruct (IH j st1 g st' Hs' K) as (NS & F). exists (N :: NS). constructor; [split; [exact HN|exists D0, s0; exact E0]|exact F].
Qed.
Lemma given_found d t x N : data2track o t = Ok d -> given d x N -> found_at o t x N.
Proof. intros Ed ((f & cs & fs & -> & B & C & _ & ->) & _). exists f, (settings o f x), cs, fs. split; [apply data2track_field, Ed|]. split; [apply settings_ok|]. auto. Qed.
End Given.
Lemma Forall2_nth2 {A B} (P : A -> B -> Prop) l l' i b : Forall2 P l l' -> nth_error l' i = Some b -> exists a, nth_error l i = Some a /\ P a b.
Proof. intro F. revert i. induction F as [|x y l l' H _ IH]; intros i Hi; [destruct i; discriminate|]. destruct i; [injection Hi as <-; exists x; auto|apply IH, Hi]. Qed.
Lemma two_split {A} (l : list A) i j x y : (i < j)%nat -> nth_error l i = Some x -> nth_error l j = Some y -> exists l1 l2 l3, l = (l1 ++ x :: l2 ++ y :: l3)%list.
Proof.
  intros L Hi Hj. apply nth_error_split in Hi as (l1 & l' & -> & Li). rewrite nth_error_app2 in Hj by lia. replace (j - length l1)%nat with (S (j - length l1 - 1)) in Hj by lia. cbn [nth_error] in Hj. apply nth_error_split in Hj as (l2 & l3 & -> & _). exists l1, l2, l3. reflexivity.
Qed.
Lemma nonzero_perm ls ls' : Permutation ls ls' -> Permutation (nonzero_levels ls) (nonzero_levels ls').
Proof. unfold nonzero_levels. induction 1; cbn [filter]; [constructor| | |eapply perm_trans; eassumption]; repeat destruct (negb (neqb _ _)); try constructor; try assumption; reflexivity. Qed.
(** When no eddy of a level lies within the radius of an eddy of another level, the order of the levels only changes the numbering of the eddies. *)
Theorem C114_order_of_levels_partial : forall o hav t levels levels' sel R, query_ok hav (t_query o) -> five_fitted o -> 0 <= t -> Permutation levels levels' ->
  selects (fun x => ~ zero x) levels sel ->
  (forall l1 x l2 y l3 Rx Ry r r', sel = (l1 ++ x :: l2 ++ y :: l3)%list -> alone o [x] t Rx -> alone o [y] t Ry -> first_of Rx r -> first_of Ry r' -> ~ within_radius hav r r' /\ ~ within_radius hav r' r) ->
  alone o levels t R -> exists R' E E', alone o levels' t R' /\ rows R = map (at_time t) (table E) /\ rows R' = map (at_time t) (table E') /\ Permutation E E'.
Proof.
  intros o hav t ls ls' sel R Hq H5 Ht P Hs Far H. rewrite (selects_unique _ _ _ _ Hs (nonzero_selects ls)) in Far. assert (Nz : forall x, In x (nonzero_levels ls) -> negb (neqb x (Num 0)) = true) by (intros x Hx; unfold nonzero_levels in Hx; apply filter_In in Hx; tauto). clear sel Hs. destruct (alone_inv _ _ _ _ H5 Ht H) as (g & Hg & Er).
  unfold detect_of, snapshot in Hg. destruct (data2track o t) as [d|] eqn:Ed; [|discriminate]. unfold detect_snapshot in Hg.
  destruct (snapshot_loop (t_query o) (t_keep o) (detect_level o d) empty_frame (nonzero_levels ls) initial_state) as [r s] eqn:El. cbn [fst] in Hg. subst r.
  destruct (given_of o H5 d _ _ _ _ _ settled_initial El) as (NS & F). assert (Eg := snapshot_given o H5 d _ _ F empty_frame initial_state settled_initial). rewrite El in Eg. cbn [fst] in Eg.
  destruct (Permutation_Forall2 (nonzero_perm _ _ P) F) as (NS' & P' & F').
  assert (FA : forall l M, Forall2 (given o d) l M -> Forall2 (found_at o t) l M) by (intros l M; induction 1; constructor; [eapply given_found; eassumption|assumption]).
  assert (OK : forall l M, Forall2 (given o d) l M -> Forall (Forall eddy_ok) M) by (intros l M G; eapply Forall2_right; [|exact (FA _ _ G)]; intros; eapply found_ok; eassumption).
  assert (F1 : far_levels hav NS).
  { assert (Al : forall x N, negb (neqb x (Num 0)) = true -> given o d x N -> exists Rx, alone o [x] t Rx /\ rows Rx = map (at_time t) (table N)).
    { intros x N Hx G. assert (Dx : detect_of o (Some [x]) t = Ok (if empty (level_table N) then empty_frame else level_table N)).
      { unfold detect_of, snapshot. rewrite Ed. unfold detect_snapshot, nonzero_levels. cbn [filter]. rewrite Hx. rewrite (snapshot_given o H5 d [x] [N] (Forall2_cons _ _ G (Forall2_nil _)) empty_frame initial_state settled_initial). cbn [map level_loop bind]. cbn [empty empty_frame rows]. destruct (empty (level_table N)); reflexivity. }
      destruct (alone_of _ _ _ _ H5 Ht Dx) as (Rx & A & B). exists Rx. split; [exact A|]. rewrite B. destruct (empty (level_table N)) eqn:Ee; [|reflexivity]. apply empty_true in Ee. cbn [level_table rows] in Ee. rewrite Ee. reflexivity. }
    assert (Two : forall i j N M e e', (i < j)%nat -> nth_error NS i = Some N -> nth_error NS j = Some M -> In e N -> In e' M -> ~ near hav e e' /\ ~ near hav e' e).
    { intros i j N M e e' Hij Hi Hj He He'. destruct (Forall2_nth2 _ _ _ _ _ F Hi) as (x & Xi & Gx), (Forall2_nth2 _ _ _ _ _ F Hj) as (y & Yj & Gy).
      destruct (two_split _ _ _ _ _ Hij Xi Yj) as (l1 & l2 & l3 & El3). destruct (Al x N (Nz x (nth_error_In _ _ Xi)) Gx) as (Rx & Ax & Ex), (Al y M (Nz y (nth_error_In _ _ Yj)) Gy) as (Ry & Ay & Ey).
      apply In_nth_error in He as (k & Hk). apply In_nth_error in He' as (k' & Hk'). split; intro Hn.
      - destruct (near_rows hav t N M Rx Ry k k' e e' Ex Ey Hk Hk' Hn) as (r & r' & A & B & _ & _ & W). apply (proj1 (Far _ _ _ _ _ _ _ r r' El3 Ax Ay A B) W).
      - destruct (near_rows hav t M N Ry Rx k' k e' e Ey Ex Hk' Hk Hn) as (r & r' & A & B & _ & _ & W). apply (proj2 (Far _ _ _ _ _ _ _ r' r El3 Ax Ay B A) W). }
    intros i j N M e e' Hij Hi Hj He He'. destruct (Nat.lt_ge_cases i j) as [L|L]; [apply (Two i j N M e e' L Hi Hj He He')|]. assert (L' : (j < i)%nat) by lia. apply (Two j i M N e' e L' Hj Hi He' He). }
  assert (F2 := far_perm hav _ _ P' F1). destruct (far_safe hav NS [] (fun _ _ _ _ _ f => match f with end) F1) as [S1 X1], (far_safe hav NS' [] (fun _ _ _ _ _ f => match f with end) F2) as [S2 X2]. cbn [app] in *.
  destruct (C14_levels_merged_as_specified hav (t_query o) Hq (t_keep o) NS (OK _ _ F) S1) as (g1 & E1 & A1 & B1 & C1 & _). destruct (C14_levels_merged_as_specified hav (t_query o) Hq (t_keep o) NS' (OK _ _ F') S2) as (g2 & E2 & A2 & B2 & C2 & _).
  unfold scan in A1, A2. rewrite A1 in Eg. injection Eg as ->.
  assert (D2 : detect_of o (Some ls') t = Ok g2) by (unfold detect_of, snapshot; rewrite Ed; unfold detect_snapshot; rewrite (snapshot_given o H5 d _ _ F' empty_frame initial_state settled_initial); exact A2).
  destruct (alone_of _ _ _ _ H5 Ht D2) as (R' & HR & Er'). exists R', E1, E2. split; [exact HR|]. split; [rewrite Er, C1; reflexivity|]. split; [rewrite Er', C2; reflexivity|]. rewrite (X1 _ B1), (X2 _ B2).
  clear - P'. induction P'; cbn [List.concat]; [constructor|apply Permutation_app_head; assumption|rewrite !app_assoc; apply Permutation_app_tail, Permutation_app_comm|eapply perm_trans; eassumption].
Qed.
Print Assumptions C114_order_of_levels_partial.
(** In general the order decides: the first of two contours of one eddy stays, unless the later one is worse (C16), so all columns may differ. *)
Theorem C114_order_of_levels_refuted : exists o levels levels' R R', five_fitted o /\ Permutation levels levels' /\ alone o levels 0 R /\ alone o levels' 0 R' /\ rows R <> [] /\ rows R' <> [] /\
  forall r r', In r (rows R) -> In r' (rows R') -> r_cols r <> r_cols r'.
Proof.
  set (o := ex_tracker [spots [(3, 3)]]). exists o, [Num (1 # 4); Num (1 # 2)], [Num (1 # 2); Num (1 # 4)]. eexists _, _.
  split; [apply ex_five|]. split; [apply perm_swap|]. split; [apply returns_of; [eexists|]; vm_compute; reflexivity|]. split; [apply returns_of; [eexists|]; vm_compute; reflexivity|].
  split; [intro H; vm_compute in H; discriminate H|]. split; [intro H; vm_compute in H; discriminate H|].
  set (R := returned _). set (R' := returned _).
  assert (A : forallb (fun r => neqb (nth 2 (others (r_cols r)) NaN) (Num (1 # 4))) (rows R) = true) by (vm_compute; reflexivity).
  assert (B' : forallb (fun r => negb (neqb (nth 2 (others (r_cols r)) NaN) (Num (1 # 4)))) (rows R') = true) by (vm_compute; reflexivity).
  rewrite forallb_forall in A, B'. intros r r' Hr Hr' E. specialize (A r Hr). specialize (B' r' Hr'). cbv beta in A, B'. rewrite <- E, A in B'. discriminate B'.
Qed.
Print Assumptions C114_order_of_levels_refuted.
(** One eddy at each of two levels *)
Definition two_signs : grid num := tabulate 12 12 (fun i j => if (Z.abs (Z.of_nat i - 3) + Z.abs (Z.of_nat j - 3) <=? 1) then Num 1 else if (Z.abs (Z.of_nat i - 8) + Z.abs (Z.of_nat j - 6) <=? 1) then Num (-1) else Num 0).
Example C114_case : let o := ex_tracker [two_signs] in let levels := [Num (-1 # 2); Num 0; Num (1 # 2)] in let sel := [Num (-1 # 2); Num (1 # 2)] in
  query_ok demo_hav (t_query o) /\ five_fitted o /\ selects (fun x => ~ zero x) levels sel /\ Permutation levels (rev levels) /\
  (forall l1 x l2 y l3 Rx Ry r r', sel = (l1 ++ x :: l2 ++ y :: l3)%list -> alone o [x] 0 Rx -> alone o [y] 0 Ry -> first_of Rx r -> first_of Ry r' -> ~ within_radius demo_hav r r' /\ ~ within_radius demo_hav r' r) /\
  exists R, alone o levels 0 R /\ map r_id (rows R) = (repeat 0 13 ++ repeat 1 13)%list.
Proof.
  cbv zeta. set (o := ex_tracker [two_signs]). split; [exact demo_ok|]. split; [apply ex_five|]. split; [|split; [|split]].
  - apply sel_keep; [intros (q & H & H0); injection H as <-; discriminate H0|]. apply sel_drop; [intro H; apply H; exists 0%Q; split; reflexivity|]. apply sel_keep; [|constructor]. intros (q & H & H0). injection H as <-. discriminate H0.
  - apply Permutation_rev.
  - intros l1 x l2 y l3 Rx Ry r r' E Ax Ay Fr Fr'. destruct l1 as [|a [|b l1]]; cbn in E; [|destruct l2; discriminate E|destruct l1; discriminate E]. injection E as <- E. destruct l2 as [|a l2]; [|destruct l2; discriminate E]. injection E as <- <-.
    assert (G : forall x R, alone o [x] 0 R -> R = returned (fst (tracking o 0 (Some 1) (Some [x]) 1 true initial_state))) by (intros x R H; unfold alone, run_returns in H; change (0 + 1) with 1 in H; rewrite H; reflexivity).
    apply G in Ax, Ay. assert (C1 : apart_b (fun _ _ => false) Rx Ry = true) by (rewrite Ax, Ay; vm_compute; reflexivity). assert (C2 : apart_b (fun _ _ => false) Ry Rx = true) by (rewrite Ax, Ay; vm_compute; reflexivity).
    split; [exact (apart_check Rx Ry _ C1 r r' Fr Fr' eq_refl)|exact (apart_check Ry Rx _ C2 r' r Fr' Fr eq_refl)].
  - eexists. split; [apply returns_of; [eexists|]; vm_compute; reflexivity|]. vm_compute. reflexivity.
Qed.

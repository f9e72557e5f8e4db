(** Properties C95-C97: data without time dimension, tracks that follow the motion of the eddies, fields that do not change. *)
From Coq Require Import Lia Permutation Sorted Lqa.
From Verif Require Import M_Base M_Tables M_Area M_Eddy M_Detect M_Cntr M_Extract M_Window M_Pipeline S_Cntr S_Tracking S_Levels S_Detect S_Pipeline S_Process S_Motion
  L_Base L_Tables L_Track L_TrackProps L_Pipeline L_Witness L_Motion P_Tracking P_Pipeline P_Process.
Open Scope Z_scope.

(** C96: if the data resolve the motion of the eddies in time, each track is one physical eddy: the run returns a table, which holds every row of every step under
    the name of its eddy.  Eddies may appear and disappear; every step must have eddies (see C08). *)
Theorem C96_tracks_follow_the_eddies : forall hav query, query_ok hav query -> forall keep detect fmt len nt tf name,
  1 <= nt -> 0 < tf -> snapshots_ok detect 0 tf -> (forall t f, 0 <= t < tf -> detect t = Ok f -> rows f <> [] /\ distinct_eddies f) ->
  named_in_order detect name tf -> (forall t, 0 < t < tf -> resolved hav detect name t) ->
  exists R, returns (time_tracking query keep detect true fmt len 0 (Some tf) nt) R /\ sorted_table (rows R) /\ Permutation (rows R) (history detect name tf).
Proof.
  intros hav query Hq keep detect fmt len nt tf name Hnt Htf So Hd No Rs. destruct (tracks_follow hav query keep detect fmt len nt name tf Hq Hnt So Hd No Rs (Z.to_nat tf)) as (R & A & B); [lia|lia|]. rewrite Z2Nat.id in A, B by lia.
  exists R. split; [exact A|]. split; [|exact B]. eapply C04_table_sorted; [exact Hq| |exact So|exact A]. lia.
Qed.
Print Assumptions C96_tracks_follow_the_eddies.
(** Two drifting eddies and, at step 2, a third one meet the hypotheses; names are the identifiers. *)
Ltac by_row H := repeat (destruct H as [H|H]; [subst|]); [..|destruct H].
Lemma demo_found t : 0 <= t < 3 -> t = 0 \/ t = 1 \/ t = 2. Proof. lia. Qed.
Example C96_case : (forall t f, 0 <= t < 3 -> demo t = Ok f -> rows f <> [] /\ distinct_eddies f) /\ named_in_order demo (fun _ i => i) 3 /\ (forall t, 0 < t < 3 -> resolved demo_hav demo (fun _ i => i) t).
Proof.
  split; [|split].
  - intros t f _ H. injection H as <-. split; [discriminate|apply snap_distinct].
  - split; [reflexivity|]. split; [|intros; assumption]. intros t Ht. assert (t = 1 \/ t = 2 \/ t = 3) as [->|[->| ->]] by lia.
    + exists 2%nat. intro i. split; [intros (r & Hr & <-); cbn in Hr; by_row Hr; cbn; lia|]. intro Hi. assert (i = 0 \/ i = 1) as [->| ->] by lia; eexists; (split; [|shelve]); cbn; [left|right; left]; reflexivity.
      Unshelve. all: reflexivity.
    + exists 2%nat. intro i. split; [intros (r & Hr & <-); cbn in Hr; by_row Hr; cbn; lia|]. intro Hi. assert (i = 0 \/ i = 1) as [->| ->] by lia; eexists; (split; [|shelve]); cbn; [left|right; left]; reflexivity.
      Unshelve. all: reflexivity.
    + exists 3%nat. intro i. split; [intros (r & Hr & <-); cbn in Hr; by_row Hr; cbn; lia|]. intro Hi. assert (i = 0 \/ i = 1 \/ i = 2) as [->|[->| ->]] by lia; eexists; (split; [|shelve]); cbn; [left|right; left|do 6 right; left]; reflexivity.
      Unshelve. all: reflexivity.
  - assert (L : forall t k p, t = 1 \/ t = 2 -> latest_position (history demo (fun _ i => i) t) k p -> (k = 0 /\ p = (0%Q, (inject_Z (t - 1) * (1 # 2))%Q)) \/ (k = 1 /\ p = (10%Q, (50 + inject_Z (t - 1) * (1 # 2))%Q))).
    { intros t k [a b] Ht (r & Hr & Hk & _ & Hy & Hx & Hl). destruct Ht as [-> | ->].
      - cbn in Hr. by_row Hr; cbn in Hy, Hx |- *; injection Hy as <-; injection Hx as <-; auto.
      - cbn in Hr. destruct Hr as [Hr|[Hr|[Hr|[Hr|[]]]]]; subst r.
        + exfalso. cbn in Hk. specialize (Hl _ (or_intror (or_intror (or_introl eq_refl))) Hk). cbn in Hl. lia.
        + exfalso. cbn in Hk. specialize (Hl _ (or_intror (or_intror (or_intror (or_introl eq_refl)))) Hk). cbn in Hl. lia.
        + cbn in Hy, Hx, Hk. injection Hy as <-. injection Hx as <-. auto.
        + cbn in Hy, Hx, Hk. injection Hy as <-. injection Hx as <-. auto. }
    assert (K0 : forall t, t = 1 \/ t = 2 -> known (history demo (fun _ i => i) t) 0 /\ known (history demo (fun _ i => i) t) 1).
    { intros t [-> | ->]; (split; eexists; (split; [|shelve]); cbn; [left|right; left]; reflexivity). Unshelve. all: reflexivity. }
    assert (L1 := fun k p => L 1 k p (or_introl eq_refl)). assert (L2 := fun k p => L 2 k p (or_intror eq_refl)). clear L.
    intros t Ht. assert (Tt : t = 1 \/ t = 2) by lia. destruct (K0 t Tt) as [KA KB]. intros r Hr _. destruct Tt as [-> | ->]; cbn in Hr; by_row Hr; do 2 eexists; (split; [split; reflexivity|]); (split; [reflexivity|]); cbn [r_id eddy_row]; (split; [intros Kn p Hp|intros Kn k' p' Hp']);
      try (exfalso; apply Kn; assumption);
      try (first [apply L1 in Hp|apply L2 in Hp]; destruct Hp as [[E ->]|[E ->]]; try discriminate E; (split; [vm_compute; reflexivity|]); intros k' p' Nk Hp'; first [apply L1 in Hp'|apply L2 in Hp']; destruct Hp' as [[-> ->]|[-> ->]]; try (exfalso; apply Nk; reflexivity); vm_compute; reflexivity).
    apply L2 in Hp'. destruct Hp' as [[-> ->]|[-> ->]]; vm_compute; intro X; discriminate X.
Qed.

(** *** C97 *)
Lemma sorted_ids (p : row -> bool) rs : sorted_table rs -> NoDup (map r_id (filter p rs)) -> StronglySorted Z.lt (map r_id (filter p rs)).
Proof.
  unfold sorted_table. induction 1 as [|r l S IH F]; intro N; cbn [filter] in *; [constructor|]. destruct (p r); [|apply IH, N]. cbn [map] in *. inversion N as [|? ? Ni N' E]; subst. constructor; [apply IH, N'|].
  rewrite Forall_map. rewrite Forall_forall in *. intros r' Hr'. assert (r_id r <> r_id r') by (intro X; apply Ni; rewrite X; apply in_map, Hr'). apply filter_In in Hr' as [Hr' _]. specialize (F r' Hr'). unfold row_le in F. lia.
Qed.
Lemma one_each_distinct f : snapshot_ok f -> sorted_table (rows f) -> NoDup (map r_id (filter (fun r => r_idx r =? 0) (rows f))) -> distinct_eddies f.
Proof.
  intros ((n & Cn) & Fp & _ & _) S N. exists n. change (map Z.of_nat (seq 0 n)) with (zseq n). apply sorted_lt_ext; [apply sorted_ids; assumption|apply zseq_sorted|]. intro i. rewrite zseq_In, <- (Cn i), in_map_iff. split.
  - intros (r & <- & Hr). apply filter_In in Hr as [Hr _]. eauto.
  - intros (r & Hr & <-). destruct (Fp r Hr) as (r0 & H0 & E & _ & I). exists r0. split; [exact E|]. apply filter_In. split; [exact H0|]. apply Z.eqb_eq, I.
Qed.
Lemma same_field o levels s t g : selected (t_data o) s g -> selected (t_data o) t g -> detect_of o levels s = detect_of o levels t.
Proof.
  intros Hs Ht. unfold detect_of, snapshot. destruct levels as [ls|]; [|reflexivity]. replace (data2track o s) with (data2track o t); [reflexivity|]. unfold data2track. destruct (t_data o) as [l|g0]; [|reflexivity].
  apply select_selected in Hs, Ht. rewrite Hs, Ht. reflexivity.
Qed.
Lemma nodup_inj {A B} (f : A -> B) l : NoDup (map f l) -> forall x y, In x l -> In y l -> f x = f y -> x = y.
Proof.
  induction l as [|a l IH]; intros N x y Hx Hy E; [destruct Hx|]. cbn in N. inversion N as [|? ? Ni N' X]; subst. destruct Hx as [<-|Hx], Hy as [<-|Hy]; [reflexivity|exfalso; apply Ni; rewrite E; apply in_map, Hy|exfalso; apply Ni; rewrite <- E; apply in_map, Hx|apply IH; assumption].
Qed.
(** C97: if the analysed steps 0, .., tf - 1 all select the same snapshot and the eddies found in it have different positions and positive radii, the run returns the
    rows of that snapshot once for each step, and every eddy keeps its identifier.  Missing: eddies at the same position. *)
Theorem C97_a_steady_field_has_steady_tracks_partial : forall o hav levels nt st tf g R0,
  query_ok hav (t_query o) -> five_fitted o -> process st -> 1 <= nt -> 0 < tf -> (forall c, (hav c c == 0)%Q) ->
  (forall t, 0 <= t < tf -> selected (t_data o) t g) -> alone o levels 0 R0 -> rows R0 <> [] ->
  NoDup (map r_id (filter (fun r => r_idx r =? 0) (rows R0))) ->
  (forall r, In r (rows R0) -> r_idx r = 0 -> exists rad, radius_eddy (r_cols r) = Num rad /\ (0 < rad)%Q) ->
  (forall r r' c c', In r (rows R0) -> In r' (rows R0) -> r_idx r = 0 -> r_idx r' = 0 -> r_id r <> r_id r' -> position_of r c -> position_of r' c' -> (0 < hav c c')%Q) ->
  exists R, run_returns o levels nt true st 0 tf [] R /\ sorted_table (rows R) /\ Permutation (rows R) (flat_map (fun t => map (at_time t) (rows R0)) (steps 0 tf)).
Proof.
  intros o hav levels nt st tf g R0 Hq H5 Hp Hnt Htf Hh Hsel Ha Hn0 Nd Hrad Hpos.
  destruct (alone_inv o levels 0 R0 H5 (Z.le_refl 0) Ha) as (f & Hf & E0). destruct (detect_facts _ _ _ _ H5 Hf) as (So & Sf & _).
  assert (Hd : forall t, 0 <= t < tf -> detect_of o (Some levels) t = Ok f) by (intros t Ht; rewrite <- Hf; eapply same_field; apply Hsel; lia).
  assert (Hnf : rows f <> []) by (intro X; rewrite X in E0; contradiction).
  rewrite E0 in Nd. rewrite filter_map_comm, map_map in Nd. cbn [at_time r_id r_idx] in Nd.
  assert (De : distinct_eddies f) by (apply one_each_distinct; assumption).
  assert (In0 : forall r, In r (rows f) -> In (at_time 0 r) (rows R0)) by (intros r Hr; rewrite E0; apply in_map, Hr).
  set (name := fun _ i : Z => i).
  assert (Fd : forall t, 0 <= t < tf -> found (detect_of o (Some levels)) t = rows f) by (intros t Ht; unfold found; rewrite Hd by exact Ht; reflexivity).
  assert (Hin : forall t r, t <= tf -> In r (history (detect_of o (Some levels)) name t) <-> exists s r0, 0 <= s < t /\ In r0 (rows f) /\ r = at_time s r0).
  { intros t r Ht. unfold history. rewrite in_flat_map. split.
    - intros (s & Hs & Hr). apply (in_range 0 t) in Hs. rewrite Fd in Hr by lia. apply in_map_iff in Hr as (r0 & <- & Hr0). exists s, r0. split; [exact Hs|]. split; [exact Hr0|reflexivity].
    - intros (s & r0 & Hs & Hr0 & ->). exists s. split; [apply (in_range 0 t), Hs|]. rewrite Fd by lia. apply in_map_iff. exists r0. split; [reflexivity|exact Hr0]. }
  destruct (C96_tracks_follow_the_eddies hav (t_query o) Hq (t_keep o) (detect_of o (Some levels)) (t_out_format o) (steps_of o) nt tf name Hnt Htf) as (R & HR & HS & HP).
  - intros t Ht. exists f. auto.
  - intros t f' Ht Hf'. rewrite Hd in Hf' by exact Ht. injection Hf' as <-. auto.
  - split; [reflexivity|]. split; [|intros t r r' _ _ _ H _ _; exact H]. intros t Ht. destruct So as ((n & Cn) & _). exists n. intro i. rewrite <- (Cn i). split.
    + intros (r & Hr & <-). apply Hin in Hr as (s & r0 & _ & Hr0 & ->); [|lia]. exists r0. auto.
    + intros (r & Hr & <-). exists (at_time 0 r). split; [|reflexivity]. apply Hin; [lia|]. exists 0, r. split; [lia|auto].
  - intros t Ht r Hr I0. rewrite Fd in Hr by lia. destruct So as (_ & _ & Pos & _). destruct (Pos r Hr I0) as (y & x & Hy & Hx). destruct (Hrad _ (In0 r Hr) I0) as (rad & Hra & Hpr). exists (y, x), rad. split; [split; assumption|]. split; [exact Hra|].
    assert (Lat : forall k p, latest_position (history (detect_of o (Some levels)) name t) k p -> exists r', In r' (rows f) /\ r_id r' = k /\ r_idx r' = 0 /\ position_of r' p).
    { intros k p (r1 & Hr1 & Ek & Ei & Ey & Ex & _). apply Hin in Hr1 as (s & r0 & _ & Hr0 & ->); [|lia]. exists r0. repeat split; assumption. }
    cbn zeta. split.
    + intros _ p Lp. destruct (Lat _ _ Lp) as (r1 & Hr1 & E1 & I1 & P1).
      assert (r1 = r) as -> by (apply (nodup_inj r_id _ Nd); [apply filter_In; split; [exact Hr1|apply Z.eqb_eq, I1]|apply filter_In; split; [exact Hr|apply Z.eqb_eq, I0]|exact E1]).
      assert (p = (y, x)) as -> by (destruct p as [p1 p2], P1 as [P1 P2]; cbn [fst snd] in P1, P2; congruence). split.
      * unfold reaches. rewrite Hh. rewrite Qmult_0_l. exact Hpr.
      * intros k' p' Nk Lp'. destruct (Lat _ _ Lp') as (r2 & Hr2 & E2 & I2 & P2). rewrite Hh. apply (Hpos (at_time 0 r) (at_time 0 r2)); [apply In0, Hr|apply In0, Hr2|exact I0|exact I2| |split; assumption|exact P2]. cbn. rewrite E2. intro X. apply Nk. symmetry. exact X.
    + intros Nk. exfalso. apply Nk. exists (at_time 0 r). split; [|reflexivity]. apply Hin; [lia|]. exists 0, r. split; [lia|auto].
  - exists R. split; [eapply returns_run; eauto; lia|]. split; [exact HS|]. rewrite HP. unfold history. rewrite !flat_map_concat_map. erewrite map_ext_in; [reflexivity|]. intros t Ht. apply (in_range 0 tf) in Ht. cbv beta. rewrite Fd by exact Ht. rewrite E0, map_map. apply map_ext. intro r. reflexivity.
Qed.
Print Assumptions C97_a_steady_field_has_steady_tracks_partial.
(** A field with two eddies, repeated three times. *)
Definition steady := ex_tracker (repeat (spots [(3, 3); (3, 7)]) 3).
Definition steady_table : frame := match snd (fst (tracking steady 0 (Some 1) (Some [Num (1 # 2)]) 1 true initial_state)) with Ok R => R | Err _ => empty_frame end.
Definition Qpos (x : num) : bool := match x with Num q => negb (Qle_bool q 0) | NaN => false end.
Definition apart (r r' : row) : bool :=
  match maxima_y (r_cols r), maxima_x (r_cols r), maxima_y (r_cols r'), maxima_x (r_cols r') with
  | Num a, Num b, Num a', Num b' => (r_id r =? r_id r') || negb (Qle_bool (demo_hav (a, b) (a', b')) 0)
  | _, _, _, _ => false
  end.
Lemma negb_Qle a b : negb (Qle_bool a b) = true -> (b < a)%Q.
Proof. intro H. apply Qnot_le_lt. intro X. apply Qle_bool_iff in X. rewrite X in H. discriminate. Qed.
Lemma rads_pos l : forallb (fun r => Qpos (radius_eddy (r_cols r))) l = true ->
  forall r, In r l -> exists rad, radius_eddy (r_cols r) = Num rad /\ (0 < rad)%Q.
Proof.
  intros H r Hr. rewrite forallb_forall in H. specialize (H r Hr). unfold Qpos in H.
  destruct (radius_eddy (r_cols r)) as [|q]; [discriminate H|]. exists q. split; [reflexivity|apply negb_Qle, H].
Qed.
Lemma all_apart l : forallb (fun r => forallb (apart r) l) l = true ->
  forall r r' c c', In r l -> In r' l -> r_id r <> r_id r' -> position_of r c -> position_of r' c' -> (0 < demo_hav c c')%Q.
Proof.
  intros H r r' [a b] [a' b'] Hr Hr' N [P1 P2] [P3 P4]. rewrite forallb_forall in H. specialize (H r Hr). rewrite forallb_forall in H. specialize (H r' Hr').
  unfold apart in H. rewrite P1, P2, P3, P4 in H. cbn [fst snd] in H. destruct (Z.eqb_spec (r_id r) (r_id r')); [contradiction|]. apply negb_Qle, H.
Qed.
Example C97_case : query_ok demo_hav (t_query steady) /\ five_fitted steady /\ (forall c, (demo_hav c c == 0)%Q) /\ (forall t, 0 <= t < 3 -> selected (t_data steady) t (spots [(3, 3); (3, 7)])) /\
  alone steady [Num (1 # 2)] 0 steady_table /\ rows steady_table <> [] /\ map r_id (filter (fun r => r_idx r =? 0) (rows steady_table)) = [0; 1] /\
  (forall r, In r (rows steady_table) -> r_idx r = 0 -> exists rad, radius_eddy (r_cols r) = Num rad /\ (0 < rad)%Q) /\
  (forall r r' c c', In r (rows steady_table) -> In r' (rows steady_table) -> r_idx r = 0 -> r_idx r' = 0 -> r_id r <> r_id r' -> position_of r c -> position_of r' c' -> (0 < demo_hav c c')%Q).
Proof.
  split; [exact demo_ok|]. split; [apply ex_five|]. split; [|split; [|split; [|split; [|split; [|split]]]]].
  - intros [x y]. unfold demo_hav. cbn [fst snd]. setoid_replace (x - x)%Q with 0%Q by ring. setoid_replace (y - y)%Q with 0%Q by ring. reflexivity.
  - intros t Ht. left. split; [lia|]. assert (t = 0 \/ t = 1 \/ t = 2) as [->|[->| ->]] by lia; reflexivity.
  - unfold alone, run_returns, steady_table. vm_compute. reflexivity.
  - vm_compute. discriminate.
  - vm_compute. reflexivity.
  - intros r Hr _. revert r Hr. apply rads_pos. vm_compute. reflexivity.
  - intros r r' c c' Hr Hr' _ _. revert r r' c c' Hr Hr'. apply all_apart. vm_compute. reflexivity.
Qed.

(** *** C95 *)
(** C95 is false: on data without a time dimension, time_tracking without tf (or with tf = 0) raises KeyError before it looks at the field. *)
Theorem C95_no_time_dimension_refuted : forall o g t0 levels nt online st, t_data o = Single g ->
  tracking o t0 None levels nt online st = (([], Err KeyError), st) /\ tracking o t0 (Some 0) levels nt online st = (([], Err KeyError), st).
Proof. intros o g t0 levels nt online st E. unfold tracking, times. rewrite E. split; reflexivity. Qed.
Print Assumptions C95_no_time_dimension_refuted.
(** C95: with tf = n the outcome is that for a series that repeats the field n times. *)
Theorem C95_like_a_repeated_field_partial : forall o g garbage t0 n levels nt online st, surface_arrays o -> t_data o = Single g -> 0 <= t0 -> (0 < n)%nat ->
  tracking o t0 (Some (Z.of_nat n)) levels nt online st = tracking (on_data o (Series (repeat g n)) garbage) t0 (Some (Z.of_nat n)) levels nt online st.
Proof.
  intros o g mem t0 n levels nt online st Ha E H0 Hn. unfold tracking, times. cbn [on_data t_data]. rewrite E. destruct (Z.eqb_spec (Z.of_nat n) 0); [lia|]. unfold tt_times. destruct (Z.eqb_spec (Z.of_nat n) 0); [lia|].
  symmetry. apply loop_data; [exact Ha|]. intros t Ht. apply in_range in Ht. unfold data2track. cbn [on_data t_data t_filter]. rewrite E. f_equal. apply select_selected. left. split; [lia|].
  rewrite nth_error_repeat by lia. reflexivity.
Qed.
Print Assumptions C95_like_a_repeated_field_partial.
Example C95_case : exists o g, t_data o = Single g /\ surface_arrays o /\ brief (fst (tracking o 0 (Some 2) (Some [Num (1 # 2)]) 5 true initial_state)) = Ok (eddy_labels 0 0 ++ eddy_labels 0 1)%list.
Proof.
  exists (on_data (ex_tracker ex_data) (Single (spots [(3, 3)])) (fun _ _ _ => blank)), (spots [(3, 3)]). split; [reflexivity|]. split; [exact (ex_arrays ex_data)|vm_compute; reflexivity].
Qed.

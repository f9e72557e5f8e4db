(** C145: the direction of time *)
From Coq Require Import Lia Permutation Sorted Lqa.
From Verif Require Import M_Base M_Tables M_Area M_Eddy M_Detect M_Cntr M_Extract M_Window M_Pipeline S_Cntr S_Tracking S_Levels S_Detect S_Pipeline S_Process S_Motion S_Backwards
  L_Base L_Tables L_Track L_TrackProps L_Levels3 L_Pipeline L_Witness L_Motion P_Tracking P_Pipeline P_Process P_Motion P_Levels2.
Open Scope Z_scope.

Lemma steps_In a b t : In t (steps a b) <-> a <= t < b.
Proof.
  unfold steps. rewrite in_map_iff. split.
  - intros (i & <- & H). apply in_seq in H. lia.
  - intro H. exists (Z.to_nat (t - a)). split; [lia|]. apply in_seq. lia.
Qed.
Lemma flat_map_ext_in' {A B} (f g : A -> list B) l : (forall a, In a l -> f a = g a) -> flat_map f l = flat_map g l.
Proof. induction l as [|a l IH]; intro H; cbn; [reflexivity|]. rewrite (H a (or_introl eq_refl)), IH; [reflexivity|]. intros x Hx. apply H. right. exact Hx. Qed.
Lemma history_In det name tf x : In x (history det name tf) <-> exists t r, 0 <= t < tf /\ In r (found det t) /\ x = named name t r.
Proof.
  unfold history. rewrite in_flat_map. split.
  - intros (t & Ht & H). apply steps_In in Ht. apply in_map_iff in H. destruct H as (r & <- & Hr). exists t, r. auto.
  - intros (t & r & Ht & Hr & ->). exists t. split; [apply steps_In, Ht|]. apply in_map, Hr.
Qed.

(** The tables of the steps, analysed alone, say the same about the motion as the analyses inside the run *)
Section Tables.
Variable det : Z -> res frame.
Variable tabs : Z -> frame.
Variable tm : Z -> Z.
Variable tf : Z.
Hypothesis Hd : forall t, 0 <= t < tf -> exists g, det t = Ok g /\ rows (tabs t) = map (at_time (tm t)) (rows g).
Lemma tabs_found t : 0 <= t < tf -> rows (tabs t) = map (at_time (tm t)) (found det t).
Proof using Hd. intro H. destruct (Hd t H) as (g & E & ->). unfold found. rewrite E. reflexivity. Qed.
Lemma tabs_history name t : t <= tf -> history (fun s => Ok (tabs s)) name t = history det name t.
Proof using Hd.
  intro H. unfold history. apply flat_map_ext_in'. intros s Hs. apply steps_In in Hs. unfold found at 1. rewrite tabs_found by lia. rewrite map_map. reflexivity.
Qed.
Lemma tabs_resolved hav name t : 0 < t < tf -> resolved hav (fun s => Ok (tabs s)) name t -> resolved hav det name t.
Proof using Hd.
  intros H HR. unfold resolved in *. rewrite tabs_history in HR by lia. intros r Hr Hi. apply (HR (at_time (tm t) r)); [|exact Hi]. unfold found at 1. rewrite tabs_found by lia. apply in_map, Hr.
Qed.
Lemma tabs_in_order name : named_in_order (fun s => Ok (tabs s)) name tf -> named_in_order det name tf.
Proof using Hd.
  intros (A & B & C). split; [exact A|]. split.
  - intros t Ht. rewrite <- tabs_history by lia. exact (B t Ht).
  - intros t r r' Ht Hr Hr' L. rewrite <- tabs_history by lia. apply (C t (at_time (tm t) r) (at_time (tm t) r')); [exact Ht| | |exact L]; unfold found; rewrite tabs_found by lia; apply in_map; assumption.
Qed.
End Tables.
Lemma filter_at_time t l : map r_id (filter (fun r => r_idx r =? 0) (map (at_time t) l)) = map r_id (filter (fun r => r_idx r =? 0) l).
Proof. induction l as [|r l IH]; cbn [map filter]; [reflexivity|]. cbn [at_time r_idx]. destruct (r_idx r =? 0); cbn [map]; rewrite IH; reflexivity. Qed.
Lemma reverse_detect o d levels t : t_data o = Series d -> 0 <= t < Z.of_nat (length d) -> detect_of (in_reverse o) levels t = detect_of o levels (Z.of_nat (length d) - 1 - t).
Proof.
  intros E Ht. unfold detect_of, snapshot. destruct levels as [ls|]; [|reflexivity]. replace (data2track (in_reverse o) t) with (data2track o (Z.of_nat (length d) - 1 - t)); [reflexivity|].
  unfold data2track. cbn [in_reverse t_data t_filter]. rewrite E. replace (select (rev d) t) with (select d (Z.of_nat (length d) - 1 - t)); [reflexivity|].
  unfold select. rewrite rev_length. destruct (Z.ltb_spec (Z.of_nat (length d) - 1 - t) 0); [lia|]. destruct (Z.ltb_spec t 0); [lia|]. destruct (Z.ltb_spec (Z.of_nat (length d) - 1 - t) 0); [lia|]. destruct (Z.ltb_spec t 0); [lia|].
  assert (X : nth_error (rev d) (Z.to_nat t) = nth_error d (Z.to_nat (Z.of_nat (length d) - 1 - t))); [|rewrite X; reflexivity].
  assert (L : (Z.to_nat t < length (rev d))%nat) by (rewrite rev_length; lia).
  destruct d as [|g0 d0]; [cbn in Ht; lia|]. set (d := g0 :: d0) in *.
  rewrite (nth_error_nth' (rev d) g0 L), (nth_error_nth' d g0) by lia. f_equal. rewrite rev_length in L. rewrite rev_nth by exact L. f_equal. lia.
Qed.
Lemma follow o hav levels nt st tf name tabs tm : query_ok hav (t_query o) -> five_fitted o -> process st -> 1 <= nt -> 0 < tf ->
  (forall t, 0 <= t < tf -> exists g, detect_of o (Some levels) t = Ok g /\ rows (tabs t) = map (at_time (tm t)) (rows g)) ->
  (forall t, 0 <= t < tf -> rows (tabs t) <> [] /\ distinct_eddies (tabs t)) ->
  named_in_order (fun t => Ok (tabs t)) name tf -> (forall t, 0 < t < tf -> resolved hav (fun t => Ok (tabs t)) name t) ->
  exists R, run_returns o levels nt true st 0 tf [] R /\ forall x, In x (rows R) <-> exists t r, 0 <= t < tf /\ In r (rows (tabs t)) /\ x = named name t r.
Proof.
  intros Hq H5 Hp Hnt Htf Hd Hne No Rs.
  destruct (C96_tracks_follow_the_eddies hav (t_query o) Hq (t_keep o) (detect_of o (Some levels)) (t_out_format o) (steps_of o) nt tf name) as (R & A & _ & B); [exact Hnt|exact Htf| | | | |].
  - intros t Ht. destruct (Hd t Ht) as (g & E & _). exists g. split; [exact E|]. apply (detect_facts _ _ _ _ H5 E).
  - intros t f Ht E. destruct (Hd t Ht) as (g & E' & Er). assert (f = g) as -> by congruence. destruct (Hne t Ht) as [N D]. split; [intro X; rewrite Er, X in N; apply N; reflexivity|]. unfold distinct_eddies in *. rewrite Er, filter_at_time in D. exact D.
  - eapply tabs_in_order; [exact Hd|exact No].
  - intros t Ht. eapply tabs_resolved; [exact Hd|exact Ht|apply Rs, Ht].
  - exists R. split; [eapply returns_run; eauto; lia|]. intro x. rewrite <- (tabs_history _ _ _ _ Hd name tf (Z.le_refl tf)) in B.
    split; [intro H; apply (Permutation_in _ B) in H; apply history_In in H; exact H|]. intro H. apply (Permutation_in _ (Permutation_sym B)). apply history_In. exact H.
Qed.

(** C145, companion: if the data resolve the motion of the eddies in both directions (S_Motion.resolved, as in C96), with the same names up to their order, the same
    eddies are in one track whether the data are gone through forwards or backwards. *)
Theorem C145_backwards : forall o hav d levels nt st st' tables name name' order,
  t_data o = Series d -> d <> [] -> query_ok hav (t_query o) -> five_fitted o -> process st -> process st' -> 1 <= nt ->
  let tf := Z.of_nat (length d) in
  (forall t, 0 <= t < tf -> alone o levels t (tables t) /\ rows (tables t) <> [] /\ distinct_eddies (tables t)) ->
  named_in_order (fun t => Ok (tables t)) name tf -> (forall t, 0 < t < tf -> resolved hav (fun t => Ok (tables t)) name t) ->
  named_in_order (fun t => Ok (tables (tf - 1 - t))) name' tf -> (forall t, 0 < t < tf -> resolved hav (fun t => Ok (tables (tf - 1 - t))) name' t) ->
  (forall t r, 0 <= t < tf -> In r (rows (tables t)) -> name' (tf - 1 - t) (r_id r) = order (name t (r_id r))) -> (forall i j, order i = order j -> i = j) ->
  exists R R', run_returns o levels nt true st 0 tf [] R /\ run_returns (in_reverse o) levels nt true st' 0 tf [] R' /\
    forall t s c c', 0 <= t < tf -> 0 <= s < tf -> (one_track R t c s c' <-> one_track R' (tf - 1 - t) c (tf - 1 - s) c').
Proof.
  intros o hav d levels nt st st' tables name name' order Ed Hne Hq H5 Hp Hp' Hnt tf HT No Rs No' Rs' Hn Hi.
  assert (Htf : 0 < tf) by (unfold tf; destruct d; [congruence|cbn; lia]).
  assert (Hd : forall t, 0 <= t < tf -> exists g, detect_of o (Some levels) t = Ok g /\ rows (tables t) = map (at_time t) (rows g)).
  { intros t Ht. destruct (HT t Ht) as (A & _). apply (alone_inv o levels t _ H5 (proj1 Ht) A). }
  destruct (follow o hav levels nt st tf name tables (fun t => t) Hq H5 Hp Hnt Htf Hd) as (R & A & B); [intros t Ht; apply (HT t Ht)|exact No|exact Rs|].
  destruct (follow (in_reverse o) hav levels nt st' tf name' (fun t => tables (tf - 1 - t)) (fun t => tf - 1 - t) Hq H5 Hp' Hnt Htf) as (R' & A' & B'); [|intros t Ht; apply (HT (tf - 1 - t)); lia|exact No'|exact Rs'|].
  { intros t Ht. rewrite (reverse_detect o d (Some levels) t Ed Ht). fold tf. apply Hd. lia. }
  exists R, R'. split; [exact A|]. split; [exact A'|]. intros t s c c' Ht Hs. split.
  - intros (r & r' & I & I' & T & C & T' & C' & E). apply B in I. apply B in I'. destruct I as (t1 & a & H1 & J1 & ->). destruct I' as (s1 & b & H2 & J2 & ->). cbn [named with_id at_time r_time r_cols r_id] in *. subst t1 s1.
    exists (named name' (tf - 1 - t) a), (named name' (tf - 1 - s) b). split; [apply B'; exists (tf - 1 - t), a; replace (tf - 1 - (tf - 1 - t)) with t by lia; split; [lia|]; split; [exact J1|reflexivity]|].
    split; [apply B'; exists (tf - 1 - s), b; replace (tf - 1 - (tf - 1 - s)) with s by lia; split; [lia|]; split; [exact J2|reflexivity]|]. cbn [named with_id at_time r_time r_cols r_id].
    split; [reflexivity|]. split; [exact C|]. split; [reflexivity|]. split; [exact C'|]. rewrite (Hn t a Ht J1), (Hn s b Hs J2), E. reflexivity.
  - intros (r & r' & I & I' & T & C & T' & C' & E). apply B' in I. apply B' in I'. destruct I as (t1 & a & H1 & J1 & ->). destruct I' as (s1 & b & H2 & J2 & ->). cbn [named with_id at_time r_time r_cols r_id] in *. subst t1 s1.
    replace (tf - 1 - (tf - 1 - t)) with t in J1 by lia. replace (tf - 1 - (tf - 1 - s)) with s in J2 by lia. rewrite (Hn t a Ht J1), (Hn s b Hs J2) in E. apply Hi in E.
    exists (named name t a), (named name s b). split; [apply B; exists t, a; auto|]. split; [apply B; exists s, b; auto|]. cbn [named with_id at_time r_time r_cols r_id]. auto 10.
Qed.
Print Assumptions C145_backwards.

Lemma self_track R n t c : (n < length (rows R))%nat -> r_time (nth n (rows R) (mkRow 0 0 0 (mkCols NaN NaN NaN NaN NaN []))) = t -> r_cols (nth n (rows R) (mkRow 0 0 0 (mkCols NaN NaN NaN NaN NaN []))) = c -> one_track R t c t c.
Proof. intros L T C. pose proof (nth_In _ (mkRow 0 0 0 (mkCols NaN NaN NaN NaN NaN [])) L) as I. exists (nth n (rows R) (mkRow 0 0 0 (mkCols NaN NaN NaN NaN NaN []))), (nth n (rows R) (mkRow 0 0 0 (mkCols NaN NaN NaN NaN NaN []))). auto 10. Qed.
(** *** two eddies that merge: forwards one of them ends, backwards both continue the one eddy *)
Theorem C145_backwards_refuted : exists o hav d levels nt R R' c c', t_data o = Series d /\ query_ok hav (t_query o) /\ five_fitted o /\ length d = 2%nat /\ 1 <= nt /\
  run_returns o levels nt true initial_state 0 2 [] R /\ run_returns (in_reverse o) levels nt true initial_state 0 2 [] R' /\
  one_track R 0 c 0 c /\ one_track R 0 c' 0 c' /\ one_track R' 1 c 1 c' /\ ~ one_track R 0 c 0 c'.
Proof.
  set (o := ex_tracker [spots [(3, 3); (7, 3)]; spots [(5, 3)]]).
  set (R := returned (fst (tracking o 0 (Some 2) (Some [Num (1 # 2)]) 1 true initial_state))). set (R' := returned (fst (tracking (in_reverse o) 0 (Some 2) (Some [Num (1 # 2)]) 1 true initial_state))).
  set (k := r_cols (nth 13 (rows R') (mkRow 0 0 0 (mkCols NaN NaN NaN NaN NaN [])))). set (k' := r_cols (nth 26 (rows R') (mkRow 0 0 0 (mkCols NaN NaN NaN NaN NaN [])))).
  exists o, demo_hav, [spots [(3, 3); (7, 3)]; spots [(5, 3)]], [Num (1 # 2)], 1, R, R', k, k'.
  split; [reflexivity|]. split; [exact demo_ok|]. split; [apply ex_five|]. split; [reflexivity|]. split; [lia|].
  split; [apply returns_of; [eexists|]; vm_compute; reflexivity|]. split; [apply returns_of; [eexists|]; vm_compute; reflexivity|].
  split; [apply (self_track R 0); [apply Nat.ltb_lt; vm_compute; reflexivity|vm_compute; reflexivity|vm_compute; reflexivity]|].
  split; [apply (self_track R 32); [apply Nat.ltb_lt; vm_compute; reflexivity|vm_compute; reflexivity|vm_compute; reflexivity]|]. split.
  - exists (nth 13 (rows R') (mkRow 0 0 0 (mkCols NaN NaN NaN NaN NaN []))), (nth 26 (rows R') (mkRow 0 0 0 (mkCols NaN NaN NaN NaN NaN []))).
    split; [apply nth_In; apply Nat.ltb_lt; vm_compute; reflexivity|]. split; [apply nth_In; apply Nat.ltb_lt; vm_compute; reflexivity|]. split; [vm_compute; reflexivity|]. split; [reflexivity|]. split; [vm_compute; reflexivity|]. split; [reflexivity|vm_compute; reflexivity].
  - intros (r & r' & I & I' & T & C & T' & C' & E).
    assert (Y : neqb (maxima_y (r_cols r)) (Num 2) = true) by (rewrite C; vm_compute; reflexivity). assert (Y' : neqb (maxima_y (r_cols r')) (Num 6) = true) by (rewrite C'; vm_compute; reflexivity).
    assert (A : forallb (fun r => implb ((r_time r =? 0) && neqb (maxima_y (r_cols r)) (Num 2)) (r_id r =? 0)) (rows R) = true) by (vm_compute; reflexivity).
    assert (B : forallb (fun r => implb ((r_time r =? 0) && neqb (maxima_y (r_cols r)) (Num 6)) (r_id r =? 1)) (rows R) = true) by (vm_compute; reflexivity).
    rewrite forallb_forall in A, B. specialize (A r I). specialize (B r' I'). cbv beta in A, B. rewrite T, Y in A. rewrite T', Y' in B. cbn in A, B. apply Z.eqb_eq in A. apply Z.eqb_eq in B. lia.
Qed.
Print Assumptions C145_backwards_refuted.

(** The hypotheses of the companion are met by two eddies, one drifting north and one drifting east *)
Definition firsts (f : frame) : list (Z * num * num * num) := map (fun r => (r_id r, maxima_y (r_cols r), maxima_x (r_cols r), radius_eddy (r_cols r))) (filter (fun r => r_idx r =? 0) (rows f)).
Definition two_ids (f : frame) : bool := forallb (fun r => (0 <=? r_id r) && (r_id r <? 2)) (rows f).
Lemma firsts_In f r : In r (rows f) -> r_idx r = 0 -> In (r_id r, maxima_y (r_cols r), maxima_x (r_cols r), radius_eddy (r_cols r)) (firsts f).
Proof. intros H E. unfold firsts. apply (in_map (fun r => (r_id r, maxima_y (r_cols r), maxima_x (r_cols r), radius_eddy (r_cols r)))). apply filter_In. split; [exact H|]. apply Z.eqb_eq, E. Qed.
Lemma firsts_id f i y x d : In (i, y, x, d) (firsts f) -> exists r, In r (rows f) /\ r_id r = i.
Proof. intro H. unfold firsts in H. apply in_map_iff in H. destruct H as (r & E & H). apply filter_In in H. exists r. split; [apply H|congruence]. Qed.
Lemma two_steps hav tabs a0 b0 a1 b1 : two_ids (tabs 0) = true -> two_ids (tabs 1) = true ->
  firsts (tabs 0) = [(0, Num (fst a0), Num (snd a0), Num 300); (1, Num (fst b0), Num (snd b0), Num 300)] -> firsts (tabs 1) = [(0, Num (fst a1), Num (snd a1), Num 300); (1, Num (fst b1), Num (snd b1), Num 300)] ->
  reaches hav a1 300 a0 -> reaches hav b1 300 b0 -> (hav a1 a0 < hav a1 b0)%Q -> (hav b1 b0 < hav b1 a0)%Q ->
  named_in_order (fun t => Ok (tabs t)) (fun _ i => i) 2 /\ forall t, 0 < t < 2 -> resolved hav (fun t => Ok (tabs t)) (fun _ i => i) t.
Proof.
  intros I0 I1 F0 F1 Ra Rb La Lb. unfold two_ids in I0, I1. rewrite forallb_forall in I0, I1.
  assert (K : forall t i, 0 < t <= 2 -> 0 <= i < 2 -> known (history (fun t => Ok (tabs t)) (fun _ i => i) t) i).
  { intros t i Ht Hi. assert (X : exists r, In r (rows (tabs 0)) /\ r_id r = i).
    { assert (i = 0 \/ i = 1) as [-> | ->] by lia; eapply firsts_id; rewrite F0; [left|right; left]; reflexivity. }
    destruct X as (r & Hr & E). exists (named (fun _ i => i) 0 r). split; [|exact E]. apply history_In. exists 0, r. split; [lia|]. split; [exact Hr|reflexivity]. }
  split.
  - split; [reflexivity|]. split.
    + intros t Ht. exists 2%nat. intro i. split; [|intro Hi; apply K; lia]. intros (r & Hr & <-). apply history_In in Hr. destruct Hr as (s & r0 & Hs & Hr & ->). cbn [named with_id r_id]. unfold found in Hr.
      assert (s = 0 \/ s = 1) as [-> | ->] by lia; [specialize (I0 _ Hr)|specialize (I1 _ Hr)]; lia.
    + intros t r r' Ht Hr _ _ N _. exfalso. apply N. apply K; [lia|]. assert (t = 1) as -> by lia. unfold found in Hr. specialize (I1 _ Hr). lia.
  - intros t Ht. assert (t = 1) as -> by lia. unfold resolved.
    assert (L : forall k p, latest_position (history (fun t => Ok (tabs t)) (fun _ i => i) 1) k p -> (k = 0 /\ p = a0) \/ (k = 1 /\ p = b0)).
    { intros k [y x] (r & Hr & Ek & Ei & Ey & Ex & _). apply history_In in Hr. destruct Hr as (s & r0 & Hs & Hr & ->). assert (s = 0) as -> by lia. unfold found in Hr. cbn [named with_id at_time r_id r_idx r_cols fst snd] in *.
      apply firsts_In in Hr; [|exact Ei]. rewrite F0, Ey, Ex, Ek in Hr. destruct a0, b0. cbn [fst snd] in Hr. destruct Hr as [Hr|[Hr|[]]]; [left|right]; (split; congruence). }
    intros r Hr Ei. assert (Hr' := Hr). unfold found in Hr. apply firsts_In in Hr; [|exact Ei]. rewrite F1 in Hr. destruct Hr as [Hr|[Hr|[]]].
    + exists a1, 300%Q. split; [split; congruence|]. split; [congruence|]. assert (r_id r = 0) as -> by congruence. split.
      * intros _ p Hp. apply L in Hp. destruct Hp as [[_ ->]|[X _]]; [|discriminate]. split; [exact Ra|]. intros k' p' N Hp'. apply L in Hp'. destruct Hp' as [[-> _]|[_ ->]]; [congruence|exact La].
      * intro N. exfalso. apply N, K; lia.
    + exists b1, 300%Q. split; [split; congruence|]. split; [congruence|]. assert (r_id r = 1) as -> by congruence. split.
      * intros _ p Hp. apply L in Hp. destruct Hp as [[X _]|[_ ->]]; [discriminate|]. split; [exact Rb|]. intros k' p' N Hp'. apply L in Hp'. destruct Hp' as [[_ ->]|[-> _]]; [exact Lb|congruence].
      * intro N. exfalso. apply N, K; lia.
Qed.
Definition drifting := ex_tracker [spots [(2, 3); (9, 6)]; spots [(3, 3); (9, 7)]].
Definition step_table (o : tracker) (ls : list num) (t : Z) : frame := returned (fst (tracking o t (Some (t + 1)) (Some ls) 1 true initial_state)).
Lemma alone_table o ls t : (exists b, brief (fst (tracking o t (Some (t + 1)) (Some ls) 1 true initial_state)) = Ok b) -> fst (fst (tracking o t (Some (t + 1)) (Some ls) 1 true initial_state)) = [] -> alone o ls t (step_table o ls t).
Proof. intros H E. unfold alone, step_table. apply returns_of; assumption. Qed.
Lemma drift_first : two_ids (step_table drifting [Num (1 # 2)] 0) = true /\ firsts (step_table drifting [Num (1 # 2)] 0) = [(0, Num 1, Num 3, Num 300); (1, Num 8, Num 6, Num 300)].
Proof. split; vm_compute; reflexivity. Qed.
Lemma drift_second : two_ids (step_table drifting [Num (1 # 2)] 1) = true /\ firsts (step_table drifting [Num (1 # 2)] 1) = [(0, Num 2, Num 3, Num 300); (1, Num 8, Num 7, Num 300)].
Proof. split; vm_compute; reflexivity. Qed.
Lemma drift_alone t : 0 <= t < 2 -> alone drifting [Num (1 # 2)] t (step_table drifting [Num (1 # 2)] t).
Proof. intro Ht. assert (t = 0 \/ t = 1) as [-> | ->] by lia; (apply alone_table; [eexists|]; vm_compute; reflexivity). Qed.
Lemma firsts_ids f : map r_id (filter (fun r => r_idx r =? 0) (rows f)) = map (fun q => fst (fst (fst q))) (firsts f).
Proof. unfold firsts. rewrite map_map. reflexivity. Qed.
Example C145_case : let tables := step_table drifting [Num (1 # 2)] in
  query_ok demo_hav (t_query drifting) /\ five_fitted drifting /\
  (forall t, 0 <= t < 2 -> alone drifting [Num (1 # 2)] t (tables t) /\ rows (tables t) <> [] /\ distinct_eddies (tables t)) /\
  named_in_order (fun t => Ok (tables t)) (fun _ i => i) 2 /\ (forall t, 0 < t < 2 -> resolved demo_hav (fun t => Ok (tables t)) (fun _ i => i) t) /\
  named_in_order (fun t => Ok (tables (2 - 1 - t))) (fun _ i => i) 2 /\ (forall t, 0 < t < 2 -> resolved demo_hav (fun t => Ok (tables (2 - 1 - t))) (fun _ i => i) t).
Proof.
  cbv zeta. destruct drift_first as [I0 F0]. destruct drift_second as [I1 F1]. pose proof drift_alone as HA. revert I0 F0 I1 F1 HA. generalize (step_table drifting [Num (1 # 2)]). intros tables I0 F0 I1 F1 HA.
  split; [exact demo_ok|]. split; [apply ex_five|]. split.
  { intros t Ht. split; [apply HA, Ht|]. split; [intro X; assert (t = 0 \/ t = 1) as [-> | ->] by lia; [unfold firsts in F0; rewrite X in F0|unfold firsts in F1; rewrite X in F1]; discriminate|]. exists 2%nat. rewrite firsts_ids. assert (t = 0 \/ t = 1) as [-> | ->] by lia; [rewrite F0|rewrite F1]; reflexivity. }
  assert (A := two_steps demo_hav tables (1, 3)%Q (8, 6)%Q (2, 3)%Q (8, 7)%Q I0 I1 F0 F1). assert (B := two_steps demo_hav (fun t => tables (2 - 1 - t)) (2, 3)%Q (8, 7)%Q (1, 3)%Q (8, 6)%Q I1 I0 F1 F0).
  destruct A as [A1 A2]; [vm_compute; reflexivity..|]. destruct B as [B1 B2]; [vm_compute; reflexivity..|]. split; [exact A1|]. split; [exact A2|]. split; [exact B1|exact B2].
Qed.

(** C32-C37: Frechet distance, curve length and similarity. *)
From Coq Require Import Reals Lra Lia.
From Verif Require Import M_Base M_Frechet S_Frechet L_Frechet L_Frechet2 L_Frechet3.
Open Scope R_scope.

(** Curves used in the examples. *)
Definition ex_P : list point := [(0, 0); (1, 0); (2, 0)].
Definition ex_Q : list point := [(0, 1); (1, 1)].
Example ex_short : not_thinned ex_P ex_Q /\ ex_P <> [] /\ ex_Q <> [] /\ (length ex_P + length ex_Q - 1 <= 10)%nat.
Proof. split; [left; cbn; lia|]. split; [discriminate|]. split; [discriminate|]. cbn. lia. Qed.
Example ex_defined : exists d, frdist 10 ex_P ex_Q = Ok d.
Proof. apply frdist_defined; apply ex_short. Qed.

(** C32 *)
Theorem C32_discrete_frechet_distance : forall frames P Q, P <> [] -> Q <> [] -> not_thinned P Q -> (length P + length Q - 1 <= frames)%nat ->
  exists d, frdist frames P Q = Ok d /\ is_frechet P Q d.
Proof.
  intros frames P Q HP HQ N L. destruct (frdist_defined frames P Q HP HQ N L) as [d E]. exists d. split; [exact E|exact (frdist_plain_spec frames P Q d N E)].
Qed.
Print Assumptions C32_discrete_frechet_distance.
(** The distance of the two curves of the example, from its definition: couple 0-0, 1-0 and 2-1; every coupling contains (2, 1). *)
Example C32_value : frdist 10 ex_P ex_Q = Ok (sqrt 2).
Proof.
  destruct (C32_discrete_frechet_distance 10 ex_P ex_Q) as [d [E F]]; try apply ex_short. rewrite E. f_equal.
  assert (D : dist (1, 0) (0, 1) = sqrt 2) by (unfold dist; cbn [fst snd]; f_equal; unfold Rsqr; ring).
  assert (D2 : dist (2, 0) (1, 1) = sqrt 2) by (unfold dist; cbn [fst snd]; f_equal; unfold Rsqr; ring).
  assert (D0 : dist (0, 0) (0, 1) = 1) by (unfold dist; cbn [fst snd]; replace ((0 - 0)² + (0 - 1)²) with 1 by (unfold Rsqr; ring); apply sqrt_1).
  assert (S2 : 1 <= sqrt 2) by (rewrite <- sqrt_1 at 1; apply sqrt_le_1; lra).
  destruct F as [[l [[t [-> [Ht Hlast]]] [_ Hmax]]] Hmin]. apply Rle_antisym.
  - apply (Hmin [(0, 0); (1, 0); (2, 1)]%nat); [exists [(1, 0); (2, 1)]%nat; cbn; unfold advance; cbn; tauto|].
    split; [exists (1, 0)%nat; split; [cbn; tauto|exists (1, 0), (0, 1); cbn; auto]|].
    intros ij d' [<-|[<-|[<-|[]]]] [a [b [H1 [H2 ->]]]]; cbn in H1, H2; injection H1 as <-; injection H2 as <-; lra.
  - rewrite <- D2. apply (Hmax (2, 1)%nat); [|exists (2, 0), (1, 1); cbn; auto].
    change (length ex_P - 1)%nat with 2%nat in Hlast. change (length ex_Q - 1)%nat with 1%nat in Hlast. rewrite <- Hlast.
    clear. revert t. assert (G : forall (t : list (nat * nat)) a, In (last (a :: t) (0, 0)%nat) (a :: t)).
    { induction t as [|b t IH]; intro a; [left; reflexivity|]. right. exact (IH b). } intro t. apply G.
Qed.

(** C33: with both curves longer than 300 points the result can be 0 for curves as far apart as one likes. *)
Theorem C33_long_curves_refuted : forall K, 0 < K -> exists P Q, ~ not_thinned P Q /\ frdist (Z.to_nat 1000) P Q = Ok 0 /\ is_frechet P Q K.
Proof. exact thinning_hides. Qed.
Print Assumptions C33_long_curves_refuted.
(** What is computed for all curves: the distance of the curves that are left after thinning. *)
Theorem C33_distance_of_thinned_curves : forall frames P Q d, frdist frames P Q = Ok d -> exists P' Q', thinning 2 P Q P' Q' /\ is_frechet P' Q' d.
Proof. exact frdist_thinned_spec. Qed.
Print Assumptions C33_distance_of_thinned_curves.
Example C33_hypothesis_met : exists P Q, ~ not_thinned P Q /\ exists d, frdist (Z.to_nat 1000) P Q = Ok d.
Proof. destruct (thinning_hides 1 ltac:(lra)) as [P [Q [A [B _]]]]. exists P, Q. split; [exact A|]. exists 0. exact B. Qed.

(** C34 *)
Theorem C34_nonnegative : forall frames P Q d, frdist frames P Q = Ok d -> 0 <= d.
Proof. exact law_nonneg. Qed.
Print Assumptions C34_nonnegative.
Theorem C34_symmetric : forall frames P Q, frdist frames P Q = frdist frames Q P.
Proof. exact frdist_sym. Qed.
Print Assumptions C34_symmetric.
Theorem C34_identical_curves : forall frames P d, frdist frames P P = Ok d -> d = 0.
Proof. exact law_self. Qed.
Print Assumptions C34_identical_curves.
Theorem C34_first_points : forall frames P Q d a b, frdist frames P Q = Ok d -> hd_error P = Some a -> hd_error Q = Some b -> dist a b <= d.
Proof. exact law_first. Qed.
Print Assumptions C34_first_points.
Theorem C34_last_points : forall frames P Q d x, not_thinned P Q -> frdist frames P Q = Ok d -> dist (last P x) (last Q x) <= d.
Proof. exact law_last. Qed.
Print Assumptions C34_last_points.
Theorem C34_zero_means_equal : forall frames P Q, not_thinned P Q -> no_repeat P -> no_repeat Q -> frdist frames P Q = Ok 0 -> P = Q.
Proof. exact law_zero. Qed.
Print Assumptions C34_zero_means_equal.
Example C34_zero_case : not_thinned ex_P ex_P /\ no_repeat ex_P /\ frdist 10 ex_P ex_P = Ok 0.
Proof.
  split; [left; cbn; lia|]. split.
  - intros i a b Ha Hb E. destruct i as [|[|i]]; cbn in Ha, Hb; [| |destruct i; discriminate];
      injection Ha as <-; injection Hb as Hb; rewrite <- Hb in E; injection E as E; lra.
  - destruct (frdist_defined 10 ex_P ex_P) as [d E]; [discriminate|discriminate|left; cbn; lia|cbn; lia|]. rewrite E. f_equal. exact (law_self _ _ _ E).
Qed.
Theorem C34_triangle : forall f1 f2 f3 P Q S x y z, not_thinned P Q -> not_thinned Q S -> not_thinned P S ->
  frdist f1 P Q = Ok x -> frdist f2 Q S = Ok y -> frdist f3 P S = Ok z -> z <= x + y.
Proof. exact law_triangle. Qed.
Print Assumptions C34_triangle.

(** C35: a curve of 1000 points and one of 2 to 300 points exhaust 1000 frames. *)
Theorem C35_recursion_limit_refuted : forall P Q, (1000 <= Z.of_nat (length P))%Z -> (2 <= Z.of_nat (length Q) <= 300)%Z ->
  frdist (Z.to_nat 1000) P Q = Err RecursionError.
Proof. exact overflow_1000. Qed.
Print Assumptions C35_recursion_limit_refuted.
Example C35_refuted_case : frdist (Z.to_nat 1000) (repeat (0, 0) (Z.to_nat 1000)) ex_Q = Err RecursionError.
Proof. apply C35_recursion_limit_refuted; [rewrite repeat_length; lia|cbn; lia]. Qed.
(** The thinning ends for all curves, and the number of nested calls is the sum of the lengths after thinning less one. *)
Theorem C35_thinning_terminates : forall P Q : list point, exists P' Q', thinning 2 P Q P' Q' /\ not_thinned P' Q'.
Proof.
  intros P Q. destruct (thinning_exists P Q) as [P' [Q' T]]. exists P', Q'. split; [exact T|].
  apply thinning_thinned in T; [|lia]. apply (thinned_props _ _ _ _ _ T).
Qed.
Print Assumptions C35_thinning_terminates.
Theorem C35_frames_needed : forall frames P Q P' Q', P <> [] -> Q <> [] -> thinning 2 P Q P' Q' ->
  ((length P' + length Q' - 1 <= frames)%nat /\ exists d, frdist frames P Q = Ok d) \/
  ((frames < length P' + length Q' - 1)%nat /\ frdist frames P Q = Err RecursionError).
Proof. exact frdist_frames. Qed.
Print Assumptions C35_frames_needed.
Theorem C35_short_curves_never_overflow : forall P Q, P <> [] -> Q <> [] -> (Z.of_nat (length P) <= 300)%Z -> (Z.of_nat (length Q) <= 300)%Z ->
  exists d, frdist (Z.to_nat 1000) P Q = Ok d.
Proof. intros P Q HP HQ LP LQ. apply frdist_defined; [exact HP|exact HQ|left; exact LP|lia]. Qed.
Print Assumptions C35_short_curves_never_overflow.
Theorem C35_empty_curve : forall frames P Q, P = [] \/ Q = [] -> frdist frames P Q = Err IndexError.
Proof. exact frdist_empty. Qed.
Print Assumptions C35_empty_curve.

(** C36 *)
Theorem C36_between_0_and_1 : forall frames P Q s, compute_similarity frames P Q = Ok s -> 0 < arc_length P -> 0 < arc_length Q -> 0 <= s <= 1.
Proof. exact similarity_range. Qed.
Print Assumptions C36_between_0_and_1.
Theorem C36_symmetric : forall frames P Q, compute_similarity frames P Q = compute_similarity frames Q P.
Proof. exact similarity_sym. Qed.
Print Assumptions C36_symmetric.
Theorem C36_curve_with_itself : forall frames P s, compute_similarity frames P P = Ok s -> 0 < arc_length P -> s = 1.
Proof. intros frames P s H _. exact (similarity_self frames P s H). Qed.
Print Assumptions C36_curve_with_itself.
Theorem C36_moving_both : forall frames u P Q, 0 < arc_length P -> 0 < arc_length Q ->
  compute_similarity frames (translate u P) (translate u Q) = compute_similarity frames P Q.
Proof. intros frames u P Q LP LQ. apply similarity_map with 1; [lra|apply dist_translate|exact LP|exact LQ]. Qed.
Print Assumptions C36_moving_both.
Theorem C36_turning_both : forall frames t P Q, 0 < arc_length P -> 0 < arc_length Q ->
  compute_similarity frames (rotate t P) (rotate t Q) = compute_similarity frames P Q.
Proof. intros frames t P Q LP LQ. apply similarity_map with 1; [lra|apply dist_rotate|exact LP|exact LQ]. Qed.
Print Assumptions C36_turning_both.
Theorem C36_scaling_both : forall frames k P Q, k <> 0 -> 0 < arc_length P -> 0 < arc_length Q ->
  compute_similarity frames (scale k P) (scale k Q) = compute_similarity frames P Q.
Proof. intros frames k P Q Hk LP LQ. apply similarity_map with (Rabs k); [apply Rabs_pos_lt, Hk|apply dist_scale|exact LP|exact LQ]. Qed.
Print Assumptions C36_scaling_both.
(** The value: one less the distance over the geometric mean of the lengths over the square root of two, cut at 0, to four decimals. *)
Theorem C36_value : forall frames P Q s d, compute_similarity frames P Q = Ok s -> frdist frames P Q = Ok d -> 0 < arc_length P -> 0 < arc_length Q ->
  Rabs (s - Rmax (1 - sqrt 2 * d / sqrt (arc_length P * arc_length Q)) 0) <= / 20000.
Proof. exact similarity_close. Qed.
Print Assumptions C36_value.
Example C36_case : 0 < arc_length ex_P /\ 0 < arc_length ex_Q /\ exists s, compute_similarity 10 ex_P ex_Q = Ok s.
Proof.
  split; [|split].
  - unfold ex_P. rewrite arc_cons. apply Rplus_le_lt_0_compat; [apply dist_nonneg|]. apply two_pos. intro E. apply (f_equal fst) in E. cbn [fst] in E. lra.
  - apply two_pos. intro E. apply (f_equal fst) in E. cbn [fst] in E. lra.
  - destruct ex_defined as [d E]. unfold compute_similarity. rewrite E. eexists. reflexivity.
Qed.

(** C37 *)
Theorem C37_nonnegative : forall P, 0 <= arc_length P.
Proof. exact arc_nonneg. Qed.
Print Assumptions C37_nonnegative.
Theorem C37_two_points : forall a b, arc_length [a; b] = dist a b.
Proof. intros a b. rewrite arc_cons, arc_single. lra. Qed.
Print Assumptions C37_two_points.
Theorem C37_additive : forall l1 x l2, arc_length (l1 ++ x :: l2) = arc_length (l1 ++ [x]) + arc_length (x :: l2).
Proof. exact arc_app. Qed.
Print Assumptions C37_additive.
Theorem C37_direction : forall P, arc_length (rev P) = arc_length P.
Proof. exact arc_rev. Qed.
Print Assumptions C37_direction.
Theorem C37_translation : forall u P, arc_length (translate u P) = arc_length P.
Proof. intros u P. unfold translate. rewrite (arc_map _ 1); [lra|apply dist_translate]. Qed.
Print Assumptions C37_translation.
Theorem C37_rotation : forall t P, arc_length (rotate t P) = arc_length P.
Proof. intros t P. unfold rotate. rewrite (arc_map _ 1); [lra|apply dist_rotate]. Qed.
Print Assumptions C37_rotation.
Theorem C37_scaling : forall k P, arc_length (scale k P) = Rabs k * arc_length P.
Proof. intros k P. apply arc_map, dist_scale. Qed.
Print Assumptions C37_scaling.
Theorem C37_chord : forall a l, dist a (last (a :: l) a) <= arc_length (a :: l).
Proof. exact arc_chord. Qed.
Print Assumptions C37_chord.

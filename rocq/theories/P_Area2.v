(** Properties C98 and C99: the area of a contour, continued. *)
From Coq Require Import Reals Lra Lia.
From Coquelicot Require Import Coquelicot.
From Verif Require Import M_Base M_Area M_AreaR S_Area S_Area2 L_Area L_Area2 L_Area3.
Open Scope R_scope.

(** C98 is false: a triangle with sides of one to two degrees has area 0 near 0 E 0 N, and a positive area when it is moved to 90 E. *)
Definition small_triangle : list (R * R) := [(-1, 0); (0, 1); (1, 0); (-1, 0)].
Theorem C98_moved_along_a_parallel_refuted : area small_triangle = 0 /\ 0 < area (map (moved_east 90) small_triangle).
Proof.
  split; [exact (proj2 triangle_areas)|]. set (u := radians 1). pose proof small_angle as U. fold u in U. pose proof PI_RGT_0 as HPI.
  assert (E89 : radians (-1 + 90) = PI / 2 - u) by (unfold u; rewrite !radians_def; field). assert (E90 : radians (0 + 90) = PI / 2) by (rewrite !radians_def; field). assert (E91 : radians (1 + 90) = PI / 2 + u) by (unfold u; rewrite !radians_def; field).
  assert (A89 : az (-1 + 90, 0) = PI / 2). { apply az_eval; [|lra]. unfold north, east. cbn [fst snd]. rewrite radians_0, sin_0, cos_0, E89. apply atan2_up. rewrite Rmult_1_l. apply sin_gt_0; lra. }
  assert (A91 : az (1 + 90, 0) = PI / 2). { apply az_eval; [|lra]. unfold north, east. cbn [fst snd]. rewrite radians_0, sin_0, cos_0, E91. apply atan2_up. rewrite Rmult_1_l. apply sin_gt_0; lra. }
  assert (A90 : az (0 + 90, 1) = PI / 2 - u).
  { apply az_eval; [|lra]. unfold north, east. cbn [fst snd]. rewrite E90, sin_PI2, Rmult_1_r. fold u. unfold atan2. assert (0 < sin u) by (apply sin_gt_0; lra). destruct (Rlt_dec 0 (sin u)); [|contradiction].
    assert (T : cos u / sin u = tan (PI / 2 - u)) by (unfold tan; rewrite sin_shift, cos_shift; reflexivity). rewrite T. apply atan_tan. lra. }
  assert (D89 : angular_distance (-1 + 90, 0) = PI / 2 - u) by (apply dist_eval; [unfold level; cbn [fst snd]; rewrite radians_0, cos_0, E89; ring|lra]).
  assert (D91 : angular_distance (1 + 90, 0) = PI / 2 + u) by (apply dist_eval; [unfold level; cbn [fst snd]; rewrite radians_0, cos_0, E91; ring|lra]).
  assert (D90 : angular_distance (0 + 90, 1) = PI / 2) by (apply dist_eval; [unfold level; cbn [fst snd]; rewrite E90, cos_PI2; ring|lra]).
  rewrite area_def. unfold small_triangle, moved_east. cbn [map fst snd].
  change (segs _) with (seg (-1 + 90, 0) (0 + 90, 1) + (seg (0 + 90, 1) (1 + 90, 0) + (seg (1 + 90, 0) (-1 + 90, 0) + 0))). unfold seg. rewrite A89, A90, A91, D89, D90, D91.
  rewrite (wrap_small (PI / 2 - u - PI / 2)), (wrap_small (PI / 2 - (PI / 2 - u))), (wrap_small (PI / 2 - PI / 2)) by lra.
  replace (PI / 2 - u + (PI / 2 - (PI / 2 - u)) / 2) with (PI / 2 - u / 2) by field. replace (PI / 2 + (PI / 2 + u - PI / 2) / 2) with (PI / 2 - (- (u / 2))) by field. rewrite !cos_shift, sin_neg.
  set (s := sin (u / 2)). assert (S : 0 < s) by (apply sin_gt_0; lra). match goal with |- 0 < Rabs ?x * _ / _ => replace x with (2 * u * s) by field end.
  rewrite Rabs_right by (apply Rle_ge, Rmult_le_pos; lra). unfold earth_radius. apply Rdiv_lt_0_compat; [|lra]. apply Rmult_lt_0_compat; [apply Rmult_lt_0_compat; lra|]. apply pow_lt. lra.
Qed.
Print Assumptions C98_moved_along_a_parallel_refuted.

(** C99: the area reported for a contour (in km^2) is the area swept about 0 E 0 N up to 1/24 of the sum, over the segments, of |change of azimuth| times the
    square of the change of distance (in radians). *)
Theorem C99_accuracy_of_the_area : forall contour s e, swept_by contour s -> coarseness contour e ->
  Rabs (area contour - Rabs s * (earth_radius / 1000) ^ 2) <= e / 24 * (earth_radius / 1000) ^ 2.
Proof.
  intros l s e Hs He. rewrite area_def. set (K := (earth_radius / 1000) ^ 2). assert (HK : 0 <= K) by (unfold K; apply pow2_ge_0).
  replace (Rabs (segs l) * earth_radius ^ 2 / 1000000) with (Rabs (segs l) * K) by (unfold K; field). rewrite <- Rmult_minus_distr_r, Rabs_mult, (Rabs_right K) by lra. apply Rmult_le_compat_r; [exact HK|].
  eapply Rle_trans; [|apply (segs_swept l s e Hs He)]. apply Rabs_triang_inv2.
Qed.
Print Assumptions C99_accuracy_of_the_area.
(** Both quantities are defined for every contour. *)
Theorem C99_defined : forall contour, exists s e, swept_by contour s /\ coarseness contour e.
Proof. exact swept_exists. Qed.
Print Assumptions C99_defined.
(** The square with corners 1 degree from 0 E 0 N: the bound is 0 and the area is exact. *)
Example C99_case : coarseness diamond 0 /\ exists s, swept_by diamond s /\ area diamond = Rabs s * (earth_radius / 1000) ^ 2 /\ 0 < area diamond.
Proof.
  destruct (swept_exists diamond) as [s [e [A B]]].
  assert (Z : forall l e, (forall p, In p l -> angular_distance p = dist_of (cos (radians 1))) -> coarseness l e -> e = 0).
  { clear. intros l e D H. induction H as [|p|p q l d e' H1 H2 IH]; [reflexivity|reflexivity|]. rewrite IH by (intros x Hx; apply D; right; exact Hx). rewrite (D p), (D q) by (cbn; tauto). ring. }
  assert (E : e = 0) by (apply (Z diamond); [exact diamond_distance|exact B]). subst e. split; [exact B|]. exists s. split; [exact A|]. pose proof (C99_accuracy_of_the_area _ _ _ A B) as H.
  assert (X : area diamond - Rabs s * (earth_radius / 1000) ^ 2 = 0). { apply Rle_antisym; [|]; [eapply Rle_trans; [apply Rle_abs|]; lra|]. pose proof (Rle_abs (- (area diamond - Rabs s * (earth_radius / 1000) ^ 2))) as K. rewrite Rabs_Ropp in K. lra. }
  split; [lra|]. rewrite area_def, (segs_circle _ _ diamond_distance), (proj1 diamond_turns). pose proof cos_small. assert (Hc : cos (dist_of (cos (radians 1))) = cos (radians 1)) by (apply dist_cos; lra). rewrite Hc. pose proof PI_RGT_0.
  rewrite Rabs_mult, Rabs_Ropp, (Rabs_right (2 * PI)), (Rabs_right (1 - cos (radians 1))) by lra. unfold earth_radius. apply Rdiv_lt_0_compat; [|lra]. apply Rmult_lt_0_compat; [apply Rmult_lt_0_compat; lra|]. apply pow_lt. lra.
Qed.

(** C38, C43-C46, C60, C61 *)
From Coq Require Import Reals Lra Lia.
From Flocq Require Import Core.
From Verif Require Import M_Base M_Gauss S_Gauss L_Gauss.
Open Scope R_scope.

(** C38 *)
Theorem C38_defined_between_0_and_1 : forall a b, 0 < Rabs b <= Rabs a ->
  exists e, eccentricity a b = Some e /\ 0 <= e < 1 /\ (e = 0 <-> Rabs a = Rabs b).
Proof. exact ecc_range. Qed.
Print Assumptions C38_defined_between_0_and_1.
Theorem C38_increases_with_elongation : forall a b a' b' e e', 0 < Rabs b <= Rabs a -> 0 < Rabs b' <= Rabs a' ->
  eccentricity a b = Some e -> eccentricity a' b' = Some e' -> Rabs b / Rabs a < Rabs b' / Rabs a' -> e' < e.
Proof. exact ecc_monotone. Qed.
Print Assumptions C38_increases_with_elongation.
Theorem C38_scaling : forall k a b, k <> 0 -> 0 < Rabs b <= Rabs a -> eccentricity (k * a) (k * b) = eccentricity a b.
Proof. exact ecc_scale. Qed.
Print Assumptions C38_scaling.
Theorem C38_signs : forall a b, eccentricity (- a) b = eccentricity a b /\ eccentricity a (- b) = eccentricity a b.
Proof. exact ecc_sign. Qed.
Print Assumptions C38_signs.
(** With every operation rounded: no square root of a negative number, as long as the square of the larger axis does not underflow to 0. *)
Theorem C38_rounded : forall rnd a b, rounding rnd -> Rabs b <= Rabs a -> rnd (Rabs a ^ 2) <> 0 ->
  exists e, eccentricity_rounded rnd a b = Some e /\ 0 <= e <= 1.
Proof. exact ecc_rounded. Qed.
Print Assumptions C38_rounded.
Example C38_case : 0 < Rabs (-3) <= Rabs 5 /\ eccentricity 5 (-3) = Some (4 / 5).
Proof.
  assert (H : 0 < Rabs (-3) <= Rabs 5) by (rewrite Rabs_left, Rabs_right by lra; lra). split; [exact H|]. rewrite ecc_value by exact H. f_equal.
  rewrite Rabs_left, Rabs_right by lra. replace (1 - (- -3 / 5) ^ 2) with ((4 / 5)²) by (unfold Rsqr; field). apply sqrt_Rsqr. lra.
Qed.
(** IEEE binary64 rounding to nearest-even is such a rounding. *)
Definition binary64 (x : R) : R := round radix2 (FLT_exp (-1074) 53) ZnearestE x.
Example C38_binary64_is_a_rounding : rounding binary64.
Proof.
  split; [|split].
  - intros x y H. apply round_le; [apply FLT_exp_valid; reflexivity|apply valid_rnd_N|exact H].
  - apply round_0. apply valid_rnd_N.
  - apply round_generic; [apply valid_rnd_N|]. replace 1 with (bpow radix2 0) by reflexivity. apply generic_format_bpow. cbn. discriminate || lia.
Qed.
Example C38_binary64_case : binary64 (Rabs 1 ^ 2) <> 0.
Proof. rewrite Rabs_R1, pow1. destruct C38_binary64_is_a_rounding as [_ [_ H]]. rewrite H. lra. Qed.

(** C43 *)
Theorem C43_value_at_centre : forall A x0 y0 sx sy t, gaussian_at A x0 y0 sx sy t x0 y0 = A.
Proof. exact gaussian_centre. Qed.
Print Assumptions C43_value_at_centre.
Theorem C43_sign_everywhere : forall A x0 y0 sx sy t x y, A <> 0 -> 0 < A * gaussian_at A x0 y0 sx sy t x y.
Proof. exact gaussian_sign. Qed.
Print Assumptions C43_sign_everywhere.
Theorem C43_extremum_only_at_centre : forall A x0 y0 sx sy t x y, sx <> 0 -> sy <> 0 ->
  Rabs (gaussian_at A x0 y0 sx sy t x y) <= Rabs A /\
  (A <> 0 -> Rabs (gaussian_at A x0 y0 sx sy t x y) = Rabs A -> x = x0 /\ y = y0).
Proof. intros A x0 y0 sx sy t x y Hx Hy. exact (conj (gaussian_bound A x0 y0 sx sy t x y Hx Hy) (gaussian_max_only A x0 y0 sx sy t x y Hx Hy)). Qed.
Print Assumptions C43_extremum_only_at_centre.
Theorem C43_point_symmetric : forall A x0 y0 sx sy t dx dy,
  gaussian_at A x0 y0 sx sy t (x0 + dx) (y0 + dy) = gaussian_at A x0 y0 sx sy t (x0 - dx) (y0 - dy).
Proof. exact gaussian_point_symmetric. Qed.
Print Assumptions C43_point_symmetric.
Theorem C43_period_pi : forall A x0 y0 sx sy t x y, gaussian_at A x0 y0 sx sy (t + PI) x y = gaussian_at A x0 y0 sx sy t x y.
Proof. exact gaussian_period. Qed.
Print Assumptions C43_period_pi.
Theorem C43_profile : forall A x0 y0 sx sy t r, sx <> 0 -> sy <> 0 ->
  gaussian_at A x0 y0 sx sy t (x0 + r * cos t) (y0 + r * sin t) = A * exp (- (r ^ 2 / (2 * sx ^ 2))) /\
  gaussian_at A x0 y0 sx sy t (x0 - r * sin t) (y0 + r * cos t) = A * exp (- (r ^ 2 / (2 * sy ^ 2))).
Proof. intros. split; [apply gaussian_along|apply gaussian_across]; assumption. Qed.
Print Assumptions C43_profile.
Theorem C43_e_folding : forall A x0 y0 sx sy t, sx <> 0 -> sy <> 0 ->
  gaussian_at A x0 y0 sx sy t (x0 + sx * cos t) (y0 + sx * sin t) = A * exp (- (1 / 2)) /\
  gaussian_at A x0 y0 sx sy t (x0 - sy * sin t) (y0 + sy * cos t) = A * exp (- (1 / 2)).
Proof. intros A x0 y0 sx sy t Hx Hy. rewrite gaussian_along, gaussian_across, !efold by assumption. split; reflexivity. Qed.
Print Assumptions C43_e_folding.
(** The array: one value for every point, in the order of the coordinates. *)
Theorem C43_array : forall coords A x0 y0 sx sy t i, nth_error (gaussian coords A x0 y0 sx sy t) i =
  match nth_error coords i with Some (x, y) => Some (gaussian_at A x0 y0 sx sy t x y) | None => None end.
Proof. intros. unfold gaussian. rewrite nth_error_map. destruct (nth_error coords i) as [[x y]|]; reflexivity. Qed.
Print Assumptions C43_array.

(** C44: every bound strictly contains the initial value, and the widths stay positive. *)
Theorem C44_feasible_start : forall X Y g x y a b theta dx dy,
  g = mkGuess (Some x) (Some y) (Some a) (Some b) (Some theta) ->
  Rmean (diff_axis1 X) = Some dx -> Rmean (diff_axis0 Y) = Some dy -> dx <> 0 -> dy <> 0 -> 0 < a -> 0 < b ->
  Forall2 inside (guess_vector g) (construct_bounds X Y g) /\
  nth_error (construct_bounds X Y g) 0 = Some (Some (x - Rabs dx), Some (x + Rabs dx)) /\
  nth_error (construct_bounds X Y g) 1 = Some (Some (y - Rabs dy), Some (y + Rabs dy)) /\
  nth_error (construct_bounds X Y g) 2 = Some (Some (3 / 10 * a), Some (17 / 10 * a)) /\
  nth_error (construct_bounds X Y g) 3 = Some (Some (3 / 10 * b), Some (17 / 10 * b)).
Proof.
  intros X Y g x y a b theta dx dy -> EX EY Hx Hy Ha Hb. unfold guess_vector, construct_bounds. cbn [g_x g_y g_a g_b g_theta]. rewrite EX, EY. cbn [map nth_error].
  split; [|rewrite !width_positive, !coord_value by assumption; repeat split; reflexivity].
  repeat (constructor; [first [apply coord_inside; assumption|apply ellipse_inside]|]). constructor.
Qed.
Print Assumptions C44_feasible_start.
(** The spacings used: the mean step between neighbouring columns (rows) of a rectangular array, that is the mean distance from the
    first to the last column (row) divided by the number of steps. *)
Theorem C44_mean_spacing_x : forall m X, X <> [] -> (0 < m)%nat -> (forall s, In s X -> length s = S m) ->
  Rmean (diff_axis1 X) = Some (Rsum (map (fun r => last r 0 - hd 0 r) X) / INR (length X * m)).
Proof. exact spacing_x. Qed.
Print Assumptions C44_mean_spacing_x.
Theorem C44_mean_spacing_y : forall m Y r, (0 < length Y)%nat -> (0 < m)%nat -> (forall s, In s (r :: Y) -> length s = m) ->
  Rmean (diff_axis0 (r :: Y)) = Some ((Rsum (last (r :: Y) r) - Rsum r) / INR (length Y * m)).
Proof. exact spacing_y. Qed.
Print Assumptions C44_mean_spacing_y.
Example C44_case : exists dx dy, Rmean (diff_axis1 [[10; 12]; [10; 12]]) = Some dx /\ Rmean (diff_axis0 [[5; 5]; [2; 2]]) = Some dy /\ 0 < dx /\ dy < 0.
Proof. do 2 eexists. split; [reflexivity|]. split; [reflexivity|]. cbn. split; lra. Qed.
(** An exact circle has orientation NaN (see C42): no bounds contain it. *)
Theorem C44_circle_refuted : forall X Y x y a b, 0 < a -> 0 < b ->
  nth_error (construct_bounds X Y (mkGuess x y (Some a) (Some b) None)) 4 = Some (None, None) /\
  ~ Forall2 inside (guess_vector (mkGuess x y (Some a) (Some b) None)) (construct_bounds X Y (mkGuess x y (Some a) (Some b) None)).
Proof.
  intros X Y x y a b _ _. split; [reflexivity|]. intro H. unfold guess_vector, construct_bounds in H. cbn [map g_x g_y g_a g_b g_theta] in H.
  repeat match goal with H : Forall2 _ (_ :: _) _ |- _ => inversion H; clear H; subst end.
  match goal with H : inside None _ |- _ => destruct H as [v [l [u [E _]]]]; discriminate end.
Qed.
Print Assumptions C44_circle_refuted.

(** C45 *)
Theorem C45_nonnegative : forall data gauss r, gaussian_residual data gauss = Ok (Some r) -> 0 <= r.
Proof. exact residual_nonneg. Qed.
Print Assumptions C45_nonnegative.
(** The residual vanishes exactly when the misfit is the same at all valid points (whatever its size). *)
Theorem C45_zero_iff_constant_misfit : forall data gauss, length gauss = length data ->
  (gaussian_residual data gauss = Ok (Some 0) <-> (exists v, misfit data gauss v) /\ exists c, forall v, misfit data gauss v -> v = c).
Proof. exact residual_zero. Qed.
Print Assumptions C45_zero_iff_constant_misfit.
Theorem C45_perfect_fit_is_zero : forall data gauss, length gauss = length data -> (exists v, misfit data gauss v) ->
  (forall i d g, nth_error data i = Some (Some d) -> nth_error gauss i = Some g -> d = g) -> gaussian_residual data gauss = Ok (Some 0).
Proof.
  intros data gauss L H E. apply residual_zero; [exact L|]. split; [exact H|]. exists 0. intros v [i [d [g [A [B ->]]]]]. rewrite (E i d g A B), Rminus_eq_0. apply Rabs_R0.
Qed.
Print Assumptions C45_perfect_fit_is_zero.
(** It is the product of mean and standard deviation of the misfit, NaN without a valid point, and needs arrays of the same size. *)
Theorem C45_sizes : forall data gauss, length gauss = length data /\ (exists r, gaussian_residual data gauss = Ok r) \/ length gauss <> length data /\ gaussian_residual data gauss = Err ValueError.
Proof.
  intros data gauss. unfold gaussian_residual. destruct (Nat.eqb_spec (length gauss) (length data)) as [E|E]; [left|right; auto]. split; [exact E|]. destruct (nanstd (abs_diff data gauss)), (nanmean (abs_diff data gauss)); eauto.
Qed.
Print Assumptions C45_sizes.
(** A Gaussian off by any constant K everywhere has residual 0. *)
Theorem C45_zero_means_perfect_refuted : forall K A x0 y0 sx sy t coords, coords <> [] ->
  let gauss := gaussian coords A x0 y0 sx sy t in gaussian_residual (map (fun g => Some (g + K)) gauss) gauss = Ok (Some 0).
Proof.
  intros K A x0 y0 sx sy t coords N gauss. assert (N' : gauss <> []) by (unfold gauss, gaussian; destruct coords; [congruence|discriminate]). clearbody gauss.
  apply residual_zero; [rewrite map_length; reflexivity|].
  assert (M : forall v, misfit (map (fun g => Some (g + K)) gauss) gauss v -> v = Rabs K).
  { intros v [i [d [g [H1 [H2 ->]]]]]. rewrite nth_error_map, H2 in H1. injection H1 as <-. f_equal. ring. }
  split; [|exists (Rabs K); exact M]. destruct gauss as [|g l]; [congruence|]. exists (Rabs (g + K - g)), O, (g + K), g. auto.
Qed.
Print Assumptions C45_zero_means_perfect_refuted.
Example C45_case : length [1; 2] = length [Some 1; None] /\ (exists v, misfit [Some 1; None] [1; 2] v) /\ gaussian_residual [Some 1; None] [1; 2] = Ok (Some 0).
Proof.
  assert (L : length [1; 2] = length [Some 1; None]) by reflexivity. assert (M : exists v, misfit [Some 1; None] [1; 2] v) by (exists (Rabs (1 - 1)), O, 1, 1; auto).
  split; [exact L|]. split; [exact M|]. apply C45_perfect_fit_is_zero; [exact L|exact M|]. intros [|[|i]] d g H1 H2; cbn in H1, H2; try discriminate; [congruence|destruct i; discriminate].
Qed.

(** C46 *)
Theorem C46_positive : forall x, 0 < approx_RD_lat x.
Proof. intro x. rewrite RD_form. pose proof (exp_pos (- (x ^ 2 * (225 / 20000)))). pose proof (exp_pos (- (x ^ 2 * (225 / 400000)))). lra. Qed.
Print Assumptions C46_positive.
Theorem C46_symmetric : forall x, approx_RD_lat (- x) = approx_RD_lat x.
Proof. intro x. rewrite !RD_form. replace ((- x) ^ 2) with (x ^ 2) by ring. reflexivity. Qed.
Print Assumptions C46_symmetric.
Theorem C46_decreasing : forall x y, Rabs x < Rabs y -> approx_RD_lat y < approx_RD_lat x.
Proof.
  intros x y H. rewrite !RD_form. pose proof (exp_sq_decreasing (225 / 20000) x y ltac:(lra) H). pose proof (exp_sq_decreasing (225 / 400000) x y ltac:(lra) H). lra.
Qed.
Print Assumptions C46_decreasing.
Theorem C46_at_most_260 : approx_RD_lat 0 = 260 /\ forall x, approx_RD_lat x <= 260 /\ (approx_RD_lat x = 260 -> x = 0).
Proof.
  assert (Z : approx_RD_lat 0 = 260) by (rewrite RD_form; replace (- (0 ^ 2 * (225 / 20000))) with 0 by ring; replace (- (0 ^ 2 * (225 / 400000))) with 0 by ring; rewrite exp_0; lra).
  split; [exact Z|]. intro x. destruct (Req_dec x 0) as [->|N]; [rewrite Z; split; [lra|reflexivity]|].
  assert (approx_RD_lat x < approx_RD_lat 0) by (apply C46_decreasing; rewrite Rabs_R0; apply Rabs_pos_lt, N). lra.
Qed.
Print Assumptions C46_at_most_260.

(** C60: the generator turns the other way: its angle t is the angle -t of the fit. *)
Theorem C60_same_surface : forall A x0 y0 sx sy t x y, sx <> 0 -> sy <> 0 ->
  twoD_Gaussian_at A x0 y0 sx sy t x y = gaussian_at A x0 y0 sx sy (- t) x y.
Proof. exact generator_gaussian. Qed.
Print Assumptions C60_same_surface.

(** C61 *)
Theorem C61_shape : forall size w c i j, (i < size)%nat -> (j < size)%nat -> exists v, entry (makeGaussian size w c) i j = Some v.
Proof.
  intros size w c i j Hi Hj. rewrite makeGaussian_entry. apply Nat.ltb_lt in Hi. apply Nat.ltb_lt in Hj. rewrite Hi, Hj. eexists. reflexivity.
Qed.
Print Assumptions C61_shape.
(** Row i is y, column j is x. *)
Theorem C61_half_at_half_width : forall size w x0 y0 i j v, w <> 0 -> entry (makeGaussian size w (Some (x0, y0))) i j = Some v ->
  (v = 1 <-> INR j = x0 /\ INR i = y0) /\ (v = / 2 <-> r2 x0 y0 (INR j) (INR i) = (w / 2) ^ 2).
Proof.
  intros size w x0 y0 i j v Hw H. rewrite makeGaussian_entry in H. destruct (_ && _)%bool; [|discriminate]. injection H as <-. cbn [fst snd].
  split; [apply kernel_one, Hw|apply kernel_half, Hw].
Qed.
Print Assumptions C61_half_at_half_width.
Theorem C61_decreases_with_distance : forall size w x0 y0 i j v i' j' v', w <> 0 ->
  entry (makeGaussian size w (Some (x0, y0))) i j = Some v -> entry (makeGaussian size w (Some (x0, y0))) i' j' = Some v' ->
  (v < v' <-> r2 x0 y0 (INR j') (INR i') < r2 x0 y0 (INR j) (INR i)).
Proof.
  intros size w x0 y0 i j v i' j' v' Hw H H'. rewrite makeGaussian_entry in H, H'. destruct (_ && _)%bool; [|discriminate]. injection H as <-.
  destruct (_ && _)%bool; [|discriminate]. injection H' as <-. cbn [fst snd]. apply kernel_lt, Hw.
Qed.
Print Assumptions C61_decreases_with_distance.
Theorem C61_default_centre : forall size w, makeGaussian size w None = makeGaussian size w (Some (INR (Nat.div size 2), INR (Nat.div size 2))).
Proof. reflexivity. Qed.
Print Assumptions C61_default_centre.
Theorem C61_moving : forall size w center n, 
  ((exists z, moveGaussian size w center n = Ok z) <-> (n = 0 \/ n <= length center)%nat) /\
  forall z, moveGaussian size w center n = Ok z -> length z = n /\
    forall t, (t < n)%nat -> exists c, nth_error center t = Some c /\ nth_error z t = Some (makeGaussian size w (Some c)).
Proof.
  intros size w center n. split; [exact (move_from_iff size w center n 0)|]. intros z H. exact (move_from_ok size w center n 0 z H).
Qed.
Print Assumptions C61_moving.
Example C61_case : entry (makeGaussian 5 2 (Some (2, 2))) 2 3 = Some (/ 2).
Proof.
  destruct (C61_shape 5 2 (Some (2, 2)) 2 3) as [v E]; [lia|lia|]. rewrite E. f_equal. apply (C61_half_at_half_width 5 2 2 2 2 3 v); [lra|exact E|].
  unfold r2. cbn [INR]. field.
Qed.

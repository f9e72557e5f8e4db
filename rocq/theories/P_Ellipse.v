(** Properties C40-C42 and C70: fit_ellipse. *)
From Coq Require Import Reals Lra Lia.
From Verif Require Import M_Base M_Gauss M_Ellipse S_Ellipse L_Ellipse L_Ellipse2 L_Ellipse3 L_Ellipse4.
Open Scope R_scope.

(** C40: whatever the solver returned, a finite result has ordered axes, as many points as the contour, the first equal to the last,
    all on one ellipse with these axes. *)
Theorem C40_fitted_ellipse solve contour f : fit_ellipse solve contour = Ok (Some f) ->
  0 <= f_minor f <= f_major f /\ length (f_points f) = length contour /\
  (exists h k phi p q, ((f_major f = p /\ f_minor f = q) \/ (f_major f = q /\ f_minor f = p)) /\
     forall z, In z (f_points f) -> exists tau, z = ellipse_point h k p q phi tau) /\
  (forall z, hd_error (f_points f) = Some z -> last (f_points f) z = z).
Proof.
  unfold fit_ellipse. intro H. destruct (solve _ _) as [[|a [|b [|c [|d [|e [|? ?]]]]]]|]; try discriminate H. apply (fit_shape a b c d e (mean_of (map fst contour)) (mean_of (map snd contour)) (length contour) f).
  exact (f_equal (fun r => match r with Ok o => o | Err _ => None end) H).
Qed.
Print Assumptions C40_fitted_ellipse.

(** The points determine the curve: with at least two points the points are spread over the parameter. *)
Theorem C40_points_parametrised a b c d e mx my n f : fit_from a b c d e mx my n = Some f ->
  exists h k phi p q, 0 <= p /\ 0 <= q /\ f_major f = Rmax p q /\ f_minor f = Rmin p q /\
    f_points f = map (ellipse_point h k p q phi) (map (fun i => if Nat.eqb n 1 then 0 else 2 * PI * INR i / INR (n - 1)) (seq 0 n)).
Proof.
  unfold fit_from. destruct (turned a b c d e mx my) as [[[[[a1 c1] d1] e1] mx1] my1]. destruct (Req_EM_T a1 0) as [|Na]; [discriminate|]. destruct (Req_EM_T c1 0) as [|Nc]; [discriminate|].
  set (F := 1 + d1 ^ 2 / (4 * a1) + e1 ^ 2 / (4 * c1)). set (p := sqrt (Rabs (F / a1))). set (q := sqrt (Rabs (F / c1))). intro E. injection E as <-. cbn [f_major f_minor f_points].
  set (cs := cos (orientation a b c)). set (sn := sin (orientation a b c)). set (X0 := mx1 - d1 / 2 / a1). set (Y0 := my1 - e1 / 2 / c1).
  exists (cs * X0 + sn * Y0), (- sn * X0 + cs * Y0), (orientation a b c), p, q. split; [apply sqrt_pos|]. split; [apply sqrt_pos|]. split; [reflexivity|]. split; [reflexivity|].
  unfold linspace_2pi. apply map_ext. intro t. unfold ellipse_point. fold cs sn. f_equal; ring.
Qed.
Print Assumptions C40_points_parametrised.

(** C41: an exact ellipse comes back. *)
Theorem C41_exact_ellipse_recovered solve contour h k p q t r :
  exact_solver solve -> 0 < p -> 0 < q -> Forall (on_ellipse h k p q t) contour ->
  (coef_xy p q t = 0 \/ (1 / 1000 < Rabs (coef_xy p q t / coef_xx p q t) /\ 1 / 1000 < Rabs (coef_xy p q t / coef_yy p q t))) ->
  fit_ellipse solve contour = Ok r ->
  exists f, r = Some f /\ f_major f = Rmax p q /\ f_minor f = Rmin p q /\ forall z, In z (f_points f) -> on_ellipse h k p q t z.
Proof. intros X Hp Hq On. exact (exact_recovery solve contour h k p q t X Hp Hq On r). Qed.
Print Assumptions C41_exact_ellipse_recovered.

(** C42: for an exact ellipse that is not a circle the angle points along the long axis, whatever the tilt. *)
Theorem C42_exact_ellipse_direction solve contour h k p q t r :
  exact_solver solve -> 0 < p -> 0 < q -> Forall (on_ellipse h k p q t) contour -> q < p ->
  fit_ellipse solve contour = Ok r -> exists f th, r = Some f /\ f_theta f = Some th /\ sin (th - t) = 0.
Proof.
  intros X Hp Hq On L H. destruct (exact_direction solve contour h k p q t X Hp Hq On r ltac:(lra) H) as [f [th [E [Et [G _]]]]]. exists f, th. split; [exact E|]. split; [exact Et|exact (G L)].
Qed.
Print Assumptions C42_exact_ellipse_direction.

(** For any contour whose fitted conic is an ellipse, upright or tilted beyond the tolerance: the point of the conic at distance f_major in direction f_theta
    from its centre is the farthest one. *)
Theorem C42_direction_of_major_axis solve contour a b c d e f th :
  let mx := mean_of (map fst contour) in let my := mean_of (map snd contour) in
  solve (normal_matrix (centred contour)) (column_sums (centred contour)) = Some [a; b; c; d; e] -> 0 < a -> b ^ 2 < 4 * a * c ->
  (b = 0 \/ (1 / 1000 < Rabs (b / a) /\ 1 / 1000 < Rabs (b / c))) ->
  fit_ellipse solve contour = Ok (Some f) -> f_theta f = Some th ->
  exists h k, conic_centre a b c d e mx my h k /\ on_conic a b c d e mx my (h + f_major f * cos th, k + f_major f * sin th) /\
    (forall x y, on_conic a b c d e mx my (x, y) -> (x - h) ^ 2 + (y - k) ^ 2 <= f_major f ^ 2) /\
    (forall z, In z (f_points f) -> on_conic a b c d e mx my z).
Proof.
  intros mx my S Ha Hd HT H Hth. unfold fit_ellipse in H. rewrite S in H. assert (E : fit_from a b c d e mx my (length contour) = Some f) by exact (f_equal (fun r => match r with Ok o => o | Err _ => None end) H).
  assert (Hc : 0 < c) by nra. assert (TT : tilted a b c = true \/ b = 0) by (destruct HT as [Z|Z]; [right; exact Z|left; apply tilted_steep; [lra|lra|exact Z]]).
  destruct (direction_of_major a b c d e mx my _ f th TT Ha Hd E Hth) as [h [k [C1 [C2 C3]]]]. exists h, k. split; [exact C1|]. split; [exact C2|]. split; [exact C3|]. exact (points_on_conic a b c d e mx my _ f TT Ha Hd E).
Qed.
Print Assumptions C42_direction_of_major_axis.

(** Not for circles: the angle is then undefined (NaN) for every contour on a circle. *)
Theorem C42_circle_refuted solve contour h k p t r :
  exact_solver solve -> 0 < p -> Forall (on_ellipse h k p p t) contour -> fit_ellipse solve contour = Ok r -> exists f, r = Some f /\ f_theta f = None.
Proof. intros X Hp On. exact (exact_circle solve contour h k p p t X Hp Hp On r eq_refl). Qed.
Print Assumptions C42_circle_refuted.
(** Nor for slightly tilted ellipses: the returned ellipse lies along the x axis, the returned angle does not. *)
Theorem C42_slight_tilt_refuted : exists solve contour f th, exact_solver solve /\ Forall (on_conic 1 (1 / 2000) (2001 / 2000) 0 0 0 0) contour /\
  fit_ellipse solve contour = Ok (Some f) /\ f_theta f = Some th /\ tan th = 1 - sqrt 2 /\ sin th < 0 /\
  f_minor f < f_major f /\ forall z, In z (f_points f) -> (fst z / f_major f) ^ 2 + (snd z / f_minor f) ^ 2 = 1.
Proof. exact slight_tilt. Qed.
Print Assumptions C42_slight_tilt_refuted.

(** C70: a contour that no ellipse fits is not recognised. *)
Theorem C70_hyperbola_refuted : exists solve contour f, exact_solver solve /\ (forall z, In z contour -> fst z ^ 2 - snd z ^ 2 = 1) /\
  fit_ellipse solve contour = Ok (Some f) /\ f_major f = 1 /\ f_minor f = 1.
Proof. destruct hyperbola_accepted as [s [f H]]. exists s, hyperbola_points, f. exact H. Qed.
Print Assumptions C70_hyperbola_refuted.
Theorem C70_parabola_refuted : exists solve contour, exact_solver solve /\ (forall z, In z contour -> fst z ^ 2 + snd z = 1) /\ fit_ellipse solve contour = Ok None.
Proof. destruct parabola_not_finite as [s H]. exists s, parabola_points. exact H. Qed.
Print Assumptions C70_parabola_refuted.
(** What does hold: a fitted ellipse (positive definite conic) always gives a finite result. *)
Theorem C70_ellipse_finite solve contour a b c d e :
  solve (normal_matrix (centred contour)) (column_sums (centred contour)) = Some [a; b; c; d; e] -> 0 < a -> b ^ 2 < 4 * a * c ->
  exists f, fit_ellipse solve contour = Ok (Some f) /\ 0 < f_minor f.
Proof.
  intros S Ha Hd. assert (Hc : 0 < c) by nra. unfold fit_ellipse. rewrite S. set (mx := mean_of (map fst contour)). set (my := mean_of (map snd contour)).
  assert (Q : exists a1 c1 d1 e1 mx1 my1, turned a b c d e mx my = (a1, c1, d1, e1, mx1, my1) /\ 0 < a1 /\ 0 < c1).
  { destruct (tilted a b c) eqn:TT.
    - destruct (turned_ok a b c d e mx my (or_introl TT)) as [cs [sn [a1 [c1 [d1 [e1 [mx1 [my1 [Et T]]]]]]]]]. destruct (turn_pos T Ha Hd). exists a1, c1, d1, e1, mx1, my1. auto.
    - exists a, c, d, e, mx, my. unfold turned. rewrite TT. auto. }
  destruct Q as [a1 [c1 [d1 [e1 [mx1 [my1 [Et [Pa Pc]]]]]]]]. rewrite (fit_from_eval _ _ _ _ _ _ _ (length contour) _ _ _ _ _ _ _ _ Et eq_refl eq_refl).
  destruct (Req_EM_T a1 0); [lra|]. destruct (Req_EM_T c1 0); [lra|]. eexists. split; [reflexivity|]. cbn [f_minor]. pose proof (F_ge_1 a1 c1 d1 e1 Pa Pc).
  assert (0 < Fof a1 c1 d1 e1 / a1) by (apply Rdiv_lt_0_compat; lra). assert (0 < Fof a1 c1 d1 e1 / c1) by (apply Rdiv_lt_0_compat; lra).
  apply Rmin_pos; apply sqrt_lt_R0; rewrite Rabs_right; lra.
Qed.
Print Assumptions C70_ellipse_finite.
(** Exactly when the result is finite.  A cross term of more than a thousandth of both squares is turned away first. *)
Definition cross_term_matters (a b c : R) : Prop := Rabs a < 1000 * Rabs b /\ Rabs c < 1000 * Rabs b.
Lemma quotient_small a b : a <> 0 -> tolerance < Rabs (b / a) <-> Rabs a < 1000 * Rabs b.
Proof.
  intro N. pose proof (Rabs_pos_lt a N) as P. unfold Rdiv at 1; rewrite Rabs_mult, Rabs_inv. fold (Rabs b / Rabs a). unfold tolerance. split; intro H.
  - apply (Rmult_lt_compat_r (Rabs a)) in H; [|exact P]. unfold Rdiv at 2 in H. rewrite Rmult_assoc, Rinv_l in H by lra. lra.
  - apply Rmult_lt_reg_r with (Rabs a); [exact P|]. unfold Rdiv at 2. rewrite Rmult_assoc, Rinv_l by lra. lra.
Qed.
Lemma tilted_exactly a b c : tilted a b c = true <-> cross_term_matters a b c.
Proof.
  unfold cross_term_matters. destruct (Req_EM_T b 0) as [->|Nb].
  { rewrite Rabs_R0. split; [intro H; apply tilted_b in H; lra|]. pose proof (Rabs_pos a). lra. }
  pose proof (Rabs_pos_lt b Nb) as P. unfold tilted, abs_div, py_min. destruct (Req_EM_T b 0) as [E|_]; [contradiction|].
  destruct (Req_EM_T a 0) as [->|Na], (Req_EM_T c 0) as [->|Nc]; cbn [ext_lt]; rewrite ?Rabs_R0.
  - split; [intros _; lra|reflexivity].
  - pose proof (quotient_small c b Nc). destruct (Rlt_dec tolerance (Rabs (b / c))); split; intro; try discriminate; try reflexivity; try (split; [lra|tauto]); exfalso; tauto.
  - pose proof (quotient_small a b Na). destruct (Rlt_dec tolerance (Rabs (b / a))); split; intro; try discriminate; try reflexivity; try (split; [tauto|lra]); exfalso; tauto.
  - rewrite <- (quotient_small a b Na), <- (quotient_small c b Nc). destruct (Rlt_dec (Rabs (b / c)) (Rabs (b / a))); cbn [ext_lt]; destruct (Rlt_dec tolerance _); split; intro; try discriminate; try reflexivity; try (split; lra); exfalso; lra.
Qed.
Theorem C70_finite_exactly solve contour a b c d e :
  solve (normal_matrix (centred contour)) (column_sums (centred contour)) = Some [a; b; c; d; e] ->
  (exists f, fit_ellipse solve contour = Ok (Some f)) <-> (cross_term_matters a b c /\ b ^ 2 <> 4 * a * c) \/ (~ cross_term_matters a b c /\ a <> 0 /\ c <> 0).
Proof.
  intro S. unfold fit_ellipse. rewrite S. set (mx := mean_of (map fst contour)). set (my := mean_of (map snd contour)). rewrite <- (tilted_exactly a b c). destruct (tilted a b c) eqn:TT.
  - destruct (turned_ok a b c d e mx my (or_introl TT)) as [cs [sn [a1 [c1 [d1 [e1 [mx1 [my1 [Et T]]]]]]]]]. pose proof (turn_det T) as D.
    rewrite (fit_from_eval _ _ _ _ _ _ _ (length contour) _ _ _ _ _ _ _ _ Et eq_refl eq_refl). destruct (Req_EM_T a1 0) as [->|Na]; [|destruct (Req_EM_T c1 0) as [->|Nc]].
    + split; [intros [f E]; discriminate E|]. intros [[_ N]|[N _]]; [exfalso; apply N; lra|congruence].
    + split; [intros [f E]; discriminate E|]. intros [[_ N]|[N _]]; [exfalso; apply N; lra|congruence].
    + split; [intros _; left; split; [reflexivity|]|intros _; eexists; reflexivity]. intro E. assert (Z : a1 * c1 = 0) by lra. apply Rmult_integral in Z. tauto.
  - assert (Et : turned a b c d e mx my = (a, c, d, e, mx, my)) by (unfold turned; rewrite TT; reflexivity).
    rewrite (fit_from_eval _ _ _ _ _ _ _ (length contour) _ _ _ _ _ _ _ _ Et eq_refl eq_refl). destruct (Req_EM_T a 0) as [->|Na]; [|destruct (Req_EM_T c 0) as [->|Nc]].
    + split; [intros [f E]; discriminate E|]. intros [[N _]|[_ [N _]]]; [discriminate|congruence].
    + split; [intros [f E]; discriminate E|]. intros [[N _]|[_ [_ N]]]; [discriminate|congruence].
    + split; [intros _; right; split; [discriminate|tauto]|intros _; eexists; reflexivity].
Qed.
Print Assumptions C70_finite_exactly.
(** the hyperbola x y = 1 is turned (a = c = 0), the parabola x^2 + y = 1 is not (c = 0), nor is an axis-parallel ellipse *)
Example C70_finite_cases : (cross_term_matters 0 1 0 /\ 1 ^ 2 <> 4 * 0 * 0) /\ ~ cross_term_matters 1 0 0 /\ (~ cross_term_matters 1 0 2 /\ 1 <> 0 /\ 2 <> 0).
Proof.
  unfold cross_term_matters. rewrite Rabs_R0, Rabs_R1. split; [split; [split; lra|lra]|]. split; [lra|]. split; [lra|split; lra].
Qed.

(** A tilted ellipse with axes 2 and 1 at 45 degrees meets all hypotheses. *)
Lemma cos_sin_45 : cos (PI / 4) ^ 2 = 1 / 2 /\ sin (PI / 4) ^ 2 = 1 / 2 /\ cos (PI / 4) * sin (PI / 4) = 1 / 2.
Proof.
  rewrite cos_PI4, sin_PI4. pose proof (sqrt_lt_R0 2 ltac:(lra)). assert (E : (1 / sqrt 2) ^ 2 = 1 / 2) by (transitivity (1 / sqrt 2 ^ 2); [field; lra|rewrite pow2_sqrt by lra; reflexivity]).
  split; [exact E|]. split; [exact E|]. transitivity ((1 / sqrt 2) ^ 2); [ring|exact E].
Qed.
Lemma coefs_2_1_45 : coef_xx 2 1 (PI / 4) = 5 / 8 /\ coef_xy 2 1 (PI / 4) = - (3 / 4) /\ coef_yy 2 1 (PI / 4) = 5 / 8.
Proof.
  destruct cos_sin_45 as [Ec [Es Ecs]]. unfold coef_xx, coef_xy, coef_yy. split; [|split].
  - transitivity (cos (PI / 4) ^ 2 / 4 + sin (PI / 4) ^ 2); [field|]. rewrite Ec, Es. field.
  - transitivity (- (3 / 2) * (cos (PI / 4) * sin (PI / 4))); [field|]. rewrite Ecs. field.
  - transitivity (sin (PI / 4) ^ 2 / 4 + cos (PI / 4) ^ 2); [field|]. rewrite Ec, Es. field.
Qed.
Example C41_example : exists solve contour r, exact_solver solve /\ Forall (on_ellipse 0 0 2 1 (PI / 4)) contour /\ length contour = 6%nat /\
  (coef_xy 2 1 (PI / 4) = 0 \/ (1 / 1000 < Rabs (coef_xy 2 1 (PI / 4) / coef_xx 2 1 (PI / 4)) /\ 1 / 1000 < Rabs (coef_xy 2 1 (PI / 4) / coef_yy 2 1 (PI / 4)))) /\
  solve (normal_matrix (centred contour)) (column_sums (centred contour)) = Some [5 / 8; - (3 / 4); 5 / 8; 0; 0] /\
  fit_ellipse solve contour = Ok r.
Proof.
  destruct coefs_2_1_45 as [E1 [E2 E3]]. set (u := 1 / sqrt (5 / 8)). set (r := 1 / sqrt (5 / 8 + - (3 / 4) + 5 / 8)).
  assert (Iu : 5 / 8 * u ^ 2 = 1) by (apply inv_sqrt_sq; lra). assert (Ir : (5 / 8 + - (3 / 4) + 5 / 8) * r ^ 2 = 1) by (apply inv_sqrt_sq; lra).
  assert (Hev : forall z, In z (star u u r) -> ev (5 / 8) (- (3 / 4)) (5 / 8) 0 0 z = 1) by (intros z Hz; unfold star in Hz; destruct Hz as [<-|[<-|[<-|[<-|[<-|[<-|[]]]]]]]; unfold ev; cbn [fst snd]; lra).
  assert (N : forall x y : R, x * y ^ 2 = 1 -> y <> 0) by (intros x y Hxy ->; lra).
  destruct (solver_for (5 / 8) (- (3 / 4)) (5 / 8) 0 0 (star u u r) (star_general u u r (N _ _ Iu) (N _ _ Iu) (N _ _ Ir)) Hev) as [solve [X S]].
  assert (CI : centred (star u u r) = star u u r) by (apply centred_id; apply star_mean).
  exists solve, (star u u r). eexists. split; [exact X|]. split.
  { apply Forall_forall. intros z Hz. apply on_ellipse_quad; [lra|lra|]. rewrite E1, E2, E3. rewrite <- (Hev z Hz). unfold quad, ev. ring. }
  split; [reflexivity|]. split.
  { right. rewrite E1, E2, E3. replace (- (3 / 4) / (5 / 8)) with (- (6 / 5)) by field. rewrite Rabs_left by lra. lra. }
  split; [rewrite CI; exact S|]. unfold fit_ellipse. rewrite CI, S. reflexivity.
Qed.
(** The same contour meets the hypotheses of the theorems for conics. *)
Example C42_example : 0 < 5 / 8 /\ (- (3 / 4)) ^ 2 < 4 * (5 / 8) * (5 / 8) /\ 1 / 1000 < Rabs (- (3 / 4) / (5 / 8)) /\ (exists th, angle_x_axis (5 / 8) (- (3 / 4)) (5 / 8) = Some th).
Proof.
  split; [lra|]. split; [lra|]. split; [replace (- (3 / 4) / (5 / 8)) with (- (6 / 5)) by field; rewrite Rabs_left by lra; lra|]. apply theta_some. left. lra.
Qed.
(** And a circle through six points for the circle theorem. *)
Example C42_circle_example : exists solve contour r, exact_solver solve /\ Forall (on_ellipse 0 0 1 1 0) contour /\ fit_ellipse solve contour = Ok r /\ length contour = 6%nat.
Proof.
  set (r := 1 / sqrt (1 + 0 + 1)). assert (Ir : (1 + 0 + 1) * r ^ 2 = 1) by (apply inv_sqrt_sq; lra).
  destruct (star_fit 1 0 1 1 1 r ltac:(ring) ltac:(ring) Ir) as [solve [X H]]. exists solve, (star 1 1 r). eexists. split; [exact X|]. split; [|split; [exact H|reflexivity]].
  apply Forall_forall. intros z Hz. unfold star in Hz. destruct Hz as [<-|[<-|[<-|[<-|[<-|[<-|[]]]]]]]; unfold on_ellipse; cbn [fst snd]; rewrite cos_0, sin_0; field_simplify; lra.
Qed.

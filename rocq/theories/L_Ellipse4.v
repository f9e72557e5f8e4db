From Coq Require Import Reals Lra Lia Psatz.
From Verif Require Import M_Base M_Gauss M_Ellipse S_Ellipse L_Ellipse L_Ellipse2 L_Ellipse3.
Open Scope R_scope.

Lemma sq_eq x y : 0 <= x -> 0 <= y -> x ^ 2 = y ^ 2 -> x = y.
Proof. intros Hx Hy E. apply Rsqr_inj; [exact Hx|exact Hy|]. rewrite !Rsqr_pow2. exact E. Qed.
(** *** equation of an ellipse *)
Lemma on_ellipse_quad h k p q t z : p <> 0 -> q <> 0 -> on_ellipse h k p q t z <-> quad (coef_xx p q t) (coef_xy p q t) (coef_yy p q t) (fst z - h) (snd z - k) = 1.
Proof.
  intros Hp Hq. unfold on_ellipse. match goal with |- ?l = 1 <-> ?r = 1 => assert (E : l = r); [|rewrite E; reflexivity] end.
  unfold quad, coef_xx, coef_xy, coef_yy. field. auto.
Qed.
Lemma coef_sum p q t : p <> 0 -> q <> 0 -> coef_xx p q t + coef_yy p q t = 1 / p ^ 2 + 1 / q ^ 2.
Proof.
  intros Hp Hq. unfold coef_xx, coef_yy. transitivity ((cos t ^ 2 + sin t ^ 2) * (1 / p ^ 2 + 1 / q ^ 2)); [field; auto|]. rewrite trig1. ring.
Qed.
Lemma coef_det p q t : p <> 0 -> q <> 0 -> 4 * coef_xx p q t * coef_yy p q t - coef_xy p q t ^ 2 = 4 / (p ^ 2 * q ^ 2).
Proof.
  intros Hp Hq. unfold coef_xx, coef_xy, coef_yy. transitivity ((cos t ^ 2 + sin t ^ 2) ^ 2 * (4 / (p ^ 2 * q ^ 2))); [field; auto|]. rewrite trig1. ring.
Qed.
Lemma coef_pos p q t : 0 < p -> 0 < q -> 0 < coef_xx p q t /\ 0 < coef_yy p q t /\ coef_xy p q t ^ 2 < 4 * coef_xx p q t * coef_yy p q t.
Proof.
  intros Hp Hq. assert (P : 0 < 4 / (p ^ 2 * q ^ 2)) by (apply Rdiv_lt_0_compat; [lra|apply Rmult_lt_0_compat; apply pow_lt; assumption]).
  pose proof (coef_det p q t ltac:(lra) ltac:(lra)) as D. pose proof (sqp (coef_xy p q t)) as B.
  assert (A : 0 <= coef_xx p q t) by (unfold coef_xx; pose proof (sqp (cos t / p)); pose proof (sqp (sin t / q)); lra).
  assert (C : 0 <= coef_yy p q t) by (unfold coef_yy; pose proof (sqp (sin t / p)); pose proof (sqp (cos t / q)); lra).
  assert (N : 0 < coef_xx p q t * coef_yy p q t) by lra. split; [|split; [|lra]].
  - destruct (Req_dec (coef_xx p q t) 0) as [E|E]; [rewrite E in N; lra|lra].
  - destruct (Req_dec (coef_yy p q t) 0) as [E|E]; [rewrite E in N; lra|lra].
Qed.
Lemma coef_lmin p q t : 0 < p -> 0 < q -> lmin (coef_xx p q t) (coef_xy p q t) (coef_yy p q t) * Rmax p q ^ 2 = 1.
Proof.
  intros Hp Hq. pose proof (coef_sum p q t ltac:(lra) ltac:(lra)) as S. pose proof (coef_det p q t ltac:(lra) ltac:(lra)) as D. unfold lmin. rewrite S.
  assert (E : disc (coef_xx p q t) (coef_xy p q t) (coef_yy p q t) = Rabs (1 / p ^ 2 - 1 / q ^ 2)).
  { apply sq_eq; [apply disc_nonneg|apply Rabs_pos|]. rewrite disc_sq, pow2_abs.
    transitivity ((coef_xx p q t + coef_yy p q t) ^ 2 - (4 * coef_xx p q t * coef_yy p q t - coef_xy p q t ^ 2)); [ring|]. rewrite S, D. field. lra. }
  rewrite E. assert (M : forall x y, 0 < x -> x <= y -> 1 / y ^ 2 <= 1 / x ^ 2).
  { intros x y Hx Hxy. apply Rmult_le_compat_l; [lra|]. apply Rinv_le_contravar; [apply pow_lt, Hx|apply pow_incr; lra]. }
  destruct (Rle_dec p q) as [L|L].
  - rewrite Rmax_right by exact L. pose proof (M p q Hp L). rewrite Rabs_right by lra. field. lra.
  - rewrite Rmax_left by lra. pose proof (M q p Hq ltac:(lra)). rewrite Rabs_left1 by lra. field. lra.
Qed.
Lemma lmin_scale a b c K : 0 < K -> lmin (a / K) (b / K) (c / K) = lmin a b c / K.
Proof.
  intro HK. unfold lmin. assert (disc (a / K) (b / K) (c / K) = disc a b c / K) as ->; [|field; lra].
  apply sq_eq; [apply disc_nonneg|apply Rmult_le_pos; [apply disc_nonneg|left; apply Rinv_0_lt_compat, HK]|]. rewrite disc_sq. transitivity (disc a b c ^ 2 / K ^ 2); [|field; lra]. rewrite disc_sq. field. lra.
Qed.
Lemma minor_sq a b c d e mx my n f : tilted a b c = true \/ b = 0 -> 0 < a -> b ^ 2 < 4 * a * c -> fit_from a b c d e mx my n = Some f ->
  forall F, F * (4 * a * c - b ^ 2) = (4 * a * c - b ^ 2) + (c * d ^ 2 - b * d * e + a * e ^ 2) -> f_major f ^ 2 * f_minor f ^ 2 * (4 * a * c - b ^ 2) = 4 * F ^ 2.
Proof.
  intros HT Ha Hd E F0 HF0. destruct (turned_ok a b c d e mx my HT) as [cs [sn [a1 [c1 [d1 [e1 [mx1 [my1 [Et T]]]]]]]]].
  destruct (turn_pos T Ha Hd) as [Pa Pc]. rewrite (fit_from_eval _ _ _ _ _ _ _ n _ _ _ _ _ _ _ _ Et (tu_cs _ _ _ _ _ _ _ _ _ _ _ _ _ _ _ T) (tu_sn _ _ _ _ _ _ _ _ _ _ _ _ _ _ _ T)) in E.
  destruct (Req_EM_T a1 0); [lra|]. destruct (Req_EM_T c1 0); [lra|]. injection E as <-. cbn [f_major f_minor].
  set (F := Fof a1 c1 d1 e1). pose proof (F_ge_1 a1 c1 d1 e1 Pa Pc) as HF. fold F in HF.
  assert (F0 = F) as ->. { apply Rmult_eq_reg_r with (4 * a * c - b ^ 2); [|lra]. rewrite HF0, <- (turn_det T), <- (turn_adj T). unfold F, Fof. field. lra. }
  assert (Ka : 0 < F / a1) by (apply Rdiv_lt_0_compat; lra). assert (Kc : 0 < F / c1) by (apply Rdiv_lt_0_compat; lra).
  rewrite (Rabs_right (F / a1)), (Rabs_right (F / c1)) by lra.
  assert (Q : forall x, 0 < x -> sqrt (F / x) ^ 2 = F / x). { intros x Hx. rewrite <- Rsqr_pow2, Rsqr_sqrt by (left; apply Rdiv_lt_0_compat; lra). reflexivity. }
  rewrite <- (turn_det T). set (u := sqrt (F / a1)) in *. set (v := sqrt (F / c1)) in *.
  assert (MM : Rmax u v ^ 2 * Rmin u v ^ 2 = u ^ 2 * v ^ 2) by (unfold Rmax, Rmin; destruct (Rle_dec u v); ring).
  rewrite MM. unfold u, v. rewrite (Q a1 Pa), (Q c1 Pc). field. lra.
Qed.
Lemma steep_scale a b c K : K <> 0 -> a <> 0 -> c <> 0 -> steep a b c -> steep (a / K) (b / K) (c / K).
Proof.
  intros HK Ha Hc [H1 H2]. unfold steep. replace (b / K / (a / K)) with (b / a) by (field; auto). replace (b / K / (c / K)) with (b / c) by (field; auto). auto.
Qed.
Lemma theta_some a b c : b <> 0 \/ a <> c -> exists th, angle_x_axis a b c = Some th.
Proof.
  intro H. unfold angle_x_axis. destruct (Req_EM_T b 0) as [->|N]; [|eexists; reflexivity]. destruct (Rlt_dec a c); [eexists; reflexivity|]. destruct (Rlt_dec c a); [eexists; reflexivity|]. exfalso. destruct H as [H|H]; lra.
Qed.

Section Exact.
Variables (solve : list (list R) -> list R -> option (list R)) (contour : list (R * R)) (h k p q t : R).
Hypothesis (X : exact_solver solve) (Hp : 0 < p) (Hq : 0 < q) (On : Forall (on_ellipse h k p q t) contour).
Let A := coef_xx p q t. Let B := coef_xy p q t. Let C := coef_yy p q t.
Let mx := mean_of (map fst contour). Let my := mean_of (map snd contour).
Lemma exact_fit r : fit_ellipse solve contour = Ok r ->
  exists K, 0 < K /\ K = 1 - quad A B C (mx - h) (my - k) /\
    r = fit_from (A / K) (B / K) (C / K) ((2 * A * (mx - h) + B * (my - k)) / K) ((B * (mx - h) + 2 * C * (my - k)) / K) mx my (length contour).
Proof.
  intro H. unfold fit_ellipse in H. destruct (solve _ _) as [w|] eqn:S; [|discriminate]. destruct (coef_pos p q t Hp Hq) as [Ha [Hc Hd]].
  destruct (exact_coefficients solve contour A B C h k w X Ha Hd) as [K [HK [EK Ew]]].
  - intros z Hz. apply (proj1 (on_ellipse_quad h k p q t z ltac:(lra) ltac:(lra))). rewrite Forall_forall in On. exact (On z Hz).
  - exact S.
  - exists K. split; [exact HK|]. split; [exact EK|]. rewrite Ew in H. injection H as <-. reflexivity.
Qed.
Section K.
Variables (K : R) (HK : 0 < K) (EK : K = 1 - quad A B C (mx - h) (my - k)).
Let a := A / K. Let b := B / K. Let c := C / K. Let d := (2 * A * (mx - h) + B * (my - k)) / K. Let e := (B * (mx - h) + 2 * C * (my - k)) / K.
Lemma exact_on_conic z : on_conic a b c d e mx my z <-> on_ellipse h k p q t z.
Proof.
  rewrite (on_ellipse_quad h k p q t z) by lra. fold A B C.
  assert (I : a * (fst z - mx) ^ 2 + b * (fst z - mx) * (snd z - my) + c * (snd z - my) ^ 2 + d * (fst z - mx) + e * (snd z - my) =
     (quad A B C (fst z - h) (snd z - k) - quad A B C (mx - h) (my - k)) / K) by (unfold a, b, c, d, e, quad; field; lra).
  unfold on_conic. rewrite I. split; intro H.
  - assert (H' : quad A B C (fst z - h) (snd z - k) - quad A B C (mx - h) (my - k) = K) by (apply Rmult_eq_reg_r with (/ K); [|apply Rinv_neq_0_compat; lra]; rewrite Rinv_r by lra; exact H). lra.
  - rewrite H, EK. field. rewrite <- EK. lra.
Qed.
Lemma exact_pos : 0 < a /\ 0 < c /\ b ^ 2 < 4 * a * c.
Proof.
  destruct (coef_pos p q t Hp Hq) as [Ha [Hc Hd]]. split; [apply Rdiv_lt_0_compat; assumption|]. split; [apply Rdiv_lt_0_compat; assumption|].
  assert (P : 0 < / K ^ 2) by (apply Rinv_0_lt_compat, pow_lt, HK). assert (b ^ 2 = B ^ 2 * / K ^ 2) as -> by (unfold b; field; lra). assert (4 * a * c = 4 * A * C * / K ^ 2) as -> by (unfold a, c; field; lra).
  apply Rmult_lt_compat_r; [exact P|exact Hd].
Qed.
Lemma exact_F : 1 / K * (4 * a * c - b ^ 2) = (4 * a * c - b ^ 2) + (c * d ^ 2 - b * d * e + a * e ^ 2).
Proof.
  assert (Q : quad A B C (mx - h) (my - k) = 1 - K) by lra.
  transitivity ((4 * A * C - B ^ 2) * (1 + quad A B C (mx - h) (my - k) / K) / K ^ 2); [rewrite Q; unfold a, b, c; field; lra|].
  unfold a, b, c, d, e, quad. field. lra.
Qed.
Lemma exact_tilted : B = 0 \/ steep A B C -> tilted a b c = true \/ b = 0.
Proof.
  destruct (coef_pos p q t Hp Hq) as [Ha [Hc Hd]]. destruct exact_pos as [Pa [Pc Pd]]. intros [Z|Z]; [right; unfold b; rewrite Z; unfold Rdiv; ring|left].
  apply tilted_steep; [lra|lra|]. apply steep_scale; try lra; [fold A in Ha; lra|fold C in Hc; lra|exact Z].
Qed.
Lemma exact_axes f n : B = 0 \/ steep A B C -> fit_from a b c d e mx my n = Some f -> f_major f = Rmax p q /\ f_minor f = Rmin p q.
Proof.
  intros HT E. pose proof (exact_tilted HT) as TT. destruct exact_pos as [Pa [Pc Pd]]. destruct (major_sq _ _ _ _ _ _ _ _ _ TT Pa Pd E) as [F [EM [EF [HF _]]]].
  assert (F = 1 / K) as ->. { apply Rmult_eq_reg_r with (4 * a * c - b ^ 2); [|lra]. rewrite EF. symmetry. exact exact_F. }
  pose proof (minor_sq _ _ _ _ _ _ _ _ _ TT Pa Pd E (1 / K) EF) as MM. destruct (fit_shape _ _ _ _ _ _ _ _ _ E) as [[N0 N1] _].
  pose proof (coef_lmin p q t Hp Hq) as L. fold A B C in L. unfold a, b, c in EM. rewrite (lmin_scale A B C K HK) in EM.
  assert (M0 : 0 < Rmax p q) by (apply Rlt_le_trans with p; [exact Hp|apply Rmax_l]). assert (m0 : 0 < Rmin p q) by (apply Rmin_pos; assumption).
  assert (L0 : lmin A B C <> 0) by (intro Z; rewrite Z in L; lra).
  assert (E1 : f_major f = Rmax p q).
  { apply sq_eq; [lra|lra|]. apply Rmult_eq_reg_r with (lmin A B C); [|exact L0]. rewrite (Rmult_comm (Rmax p q ^ 2)), L. apply Rmult_eq_reg_r with (1 / K); [|apply Rgt_not_eq, Rdiv_lt_0_compat; lra].
    rewrite Rmult_1_l. transitivity (f_major f ^ 2 * (lmin A B C / K)); [field; lra|exact EM]. }
  split; [exact E1|]. apply sq_eq; [lra|lra|]. rewrite E1 in MM.
  assert (D : 4 * a * c - b ^ 2 = 4 / (p ^ 2 * q ^ 2) / K ^ 2). { rewrite <- (coef_det p q t) by lra. unfold a, b, c, A, B, C. field. lra. }
  assert (PQ : p ^ 2 * q ^ 2 = Rmax p q ^ 2 * Rmin p q ^ 2) by (unfold Rmax, Rmin; destruct (Rle_dec p q); ring).
  rewrite D, PQ in MM. apply Rmult_eq_reg_r with (4 / (Rmin p q ^ 2 * K ^ 2)); [|apply Rgt_not_eq, Rdiv_lt_0_compat; [lra|apply Rmult_lt_0_compat; apply pow_lt; assumption]].
  transitivity (Rmax p q ^ 2 * f_minor f ^ 2 * (4 / (Rmax p q ^ 2 * Rmin p q ^ 2) / K ^ 2)); [field; lra|]. rewrite MM. field. lra.
Qed.
Lemma exact_theta : p <> q -> exists th, angle_x_axis a b c = Some th /\ (q < p -> sin (th - t) = 0) /\ (p < q -> cos (th - t) = 0).
Proof.
  intro NE. destruct (theta_some a b c) as [th Hth].
  - destruct (Req_dec b 0) as [Zb|Zb]; [right|left; exact Zb]. intro Eac. assert (ZB : B = 0) by (unfold b in Zb; apply Rmult_integral in Zb as [Zb|Zb]; [exact Zb|exfalso; apply (Rinv_neq_0_compat K); lra]).
    assert (AC : A = C) by (unfold a, c in Eac; apply Rmult_eq_reg_r with (/ K); [exact Eac|apply Rinv_neq_0_compat; lra]).
    pose proof (coef_det p q t ltac:(lra) ltac:(lra)) as D. pose proof (coef_sum p q t ltac:(lra) ltac:(lra)) as S. fold A B C in D, S. rewrite ZB, AC in D. rewrite AC in S.
    assert (Z : (1 / p ^ 2 - 1 / q ^ 2) ^ 2 = 0). { transitivity ((1 / p ^ 2 + 1 / q ^ 2) ^ 2 - 4 / (p ^ 2 * q ^ 2)); [field; lra|]. rewrite <- S, <- D. ring. }
    apply sq_zero in Z. apply NE. apply sq_eq; [lra|lra|]. assert (I : / p ^ 2 = / q ^ 2) by lra. rewrite <- (Rinv_inv (p ^ 2)), I. apply Rinv_inv.
  - exists th. split; [exact Hth|]. pose proof (theta_eigen _ _ _ _ Hth) as E. unfold a, b, c in E. rewrite (lmin_scale A B C K HK) in E.
    pose proof (coef_lmin p q t Hp Hq) as L. fold A B C in L.
    assert (Q : cos (th - t) ^ 2 / p ^ 2 + sin (th - t) ^ 2 / q ^ 2 = lmin A B C).
    { transitivity (A * cos th ^ 2 + B * cos th * sin th + C * sin th ^ 2).
      - rewrite cos_minus, sin_minus. unfold A, B, C, coef_xx, coef_xy, coef_yy. field. lra.
      - apply Rmult_eq_reg_r with (/ K); [|apply Rinv_neq_0_compat; lra]. transitivity (lmin A B C / K); [rewrite <- E; field; lra|reflexivity]. }
    pose proof (trig1 (th - t)) as U. set (cc := cos (th - t)) in *. set (ss := sin (th - t)) in *. rewrite <- Q in L. split; intro Lt.
    + rewrite Rmax_left in L by lra. apply sq_zero. assert (Z : ss ^ 2 * (p ^ 2 - q ^ 2) = 0).
      { transitivity (q ^ 2 * ((cc ^ 2 / p ^ 2 + ss ^ 2 / q ^ 2) * p ^ 2 - (cc ^ 2 + ss ^ 2))); [field; lra|]. rewrite L, U. ring. }
      apply Rmult_integral in Z as [Z|Z]; [exact Z|]. exfalso. assert (q ^ 2 < p ^ 2) by nra. lra.
    + rewrite Rmax_right in L by lra. apply sq_zero. assert (Z : cc ^ 2 * (q ^ 2 - p ^ 2) = 0).
      { transitivity (p ^ 2 * ((cc ^ 2 / p ^ 2 + ss ^ 2 / q ^ 2) * q ^ 2 - (cc ^ 2 + ss ^ 2))); [field; lra|]. rewrite L, U. ring. }
      apply Rmult_integral in Z as [Z|Z]; [exact Z|]. exfalso. assert (p ^ 2 < q ^ 2) by nra. lra.
Qed.
End K.
Lemma fit_from_pos_some a b c d e mx' my' n : 0 < a -> 0 < c -> b ^ 2 < 4 * a * c -> exists f, fit_from a b c d e mx' my' n = Some f /\ f_theta f = angle_x_axis a b c.
Proof.
  intros Ha Hc Hd. destruct (tilted a b c) eqn:TT.
  - destruct (fit_some a b c d e mx' my' n (or_introl TT) Ha Hd) as [f E]. exists f. split; [exact E|]. exact (let '(ex_intro _ _ (conj _ (conj _ (conj _ G)))) := major_sq _ _ _ _ _ _ _ _ _ (or_introl TT) Ha Hd E in G).
  - unfold fit_from, turned. rewrite TT. destruct (Req_EM_T a 0); [lra|]. destruct (Req_EM_T c 0); [lra|]. eexists. split; reflexivity.
Qed.
Theorem exact_recovery r : coef_xy p q t = 0 \/ (tolerance < Rabs (coef_xy p q t / coef_xx p q t) /\ tolerance < Rabs (coef_xy p q t / coef_yy p q t)) -> fit_ellipse solve contour = Ok r ->
  exists f, r = Some f /\ f_major f = Rmax p q /\ f_minor f = Rmin p q /\ forall z, In z (f_points f) -> on_ellipse h k p q t z.
Proof.
  intros HT H. destruct (exact_fit r H) as [K [HK [EK ->]]]. destruct (exact_pos K HK) as [Pa [Pc Pd]]. pose proof (exact_tilted K HK HT) as TT.
  destruct (fit_some _ _ _ ((2 * A * (mx - h) + B * (my - k)) / K) ((B * (mx - h) + 2 * C * (my - k)) / K) mx my (length contour) TT Pa Pd) as [f E]. exists f. split; [exact E|].
  destruct (exact_axes K HK EK f _ HT E) as [E1 E2]. split; [exact E1|]. split; [exact E2|]. intros z Hz. apply (exact_on_conic K HK EK). exact (points_on_conic _ _ _ _ _ _ _ _ _ TT Pa Pd E z Hz).
Qed.
Theorem exact_direction r : p <> q -> fit_ellipse solve contour = Ok r ->
  exists f th, r = Some f /\ f_theta f = Some th /\ (q < p -> sin (th - t) = 0) /\ (p < q -> cos (th - t) = 0).
Proof.
  intros NE H. destruct (exact_fit r H) as [K [HK [EK ->]]]. destruct (exact_pos K HK) as [Pa [Pc Pd]]. destruct (exact_theta K HK NE) as [th [Eth G]].
  destruct (fit_from_pos_some _ _ _ ((2 * A * (mx - h) + B * (my - k)) / K) ((B * (mx - h) + 2 * C * (my - k)) / K) mx my (length contour) Pa Pc Pd) as [f [E Ef]].
  exists f, th. split; [exact E|]. split; [rewrite Ef; exact Eth|exact G].
Qed.
Theorem exact_circle r : p = q -> fit_ellipse solve contour = Ok r -> exists f, r = Some f /\ f_theta f = None.
Proof.
  intros EQ H. destruct (exact_fit r H) as [K [HK [EK ->]]]. destruct (exact_pos K HK) as [Pa [Pc Pd]].
  destruct (fit_from_pos_some _ _ _ ((2 * A * (mx - h) + B * (my - k)) / K) ((B * (mx - h) + 2 * C * (my - k)) / K) mx my (length contour) Pa Pc Pd) as [f [E Ef]].
  exists f. split; [exact E|]. rewrite Ef. assert (ZB : B = 0) by (unfold B, coef_xy; rewrite EQ; ring). assert (AC : A = C) by (unfold A, C, coef_xx, coef_yy; rewrite EQ; ring).
  rewrite ZB, AC. unfold angle_x_axis. destruct (Req_EM_T (0 / K) 0) as [_|N]; [|exfalso; apply N; unfold Rdiv; ring]. destruct (Rlt_dec (C / K) (C / K)); [lra|reflexivity].
Qed.
End Exact.

(** *** contours for examples and witnesses *)
Definition star (u v r : R) : list (R * R) := [(u, 0); (- u, 0); (0, v); (0, - v); (r, r); (- r, - r)].
Lemma star_mean u v r : mean_of (map fst (star u v r)) = 0 /\ mean_of (map snd (star u v r)) = 0.
Proof. unfold star, mean_of. cbn [map fst snd length]. rewrite !Rsum_cons, Rsum_nil. cbn [INR]. split; field. Qed.
Lemma centred_id contour : mean_of (map fst contour) = 0 -> mean_of (map snd contour) = 0 -> centred contour = contour.
Proof. intros Hx Hy. unfold centred. rewrite Hx, Hy. rewrite <- (map_id contour) at 2. apply map_ext. intros [x y]. cbn [fst snd]. f_equal; ring. Qed.
Lemma star_general u v r : u <> 0 -> v <> 0 -> r <> 0 -> in_general_position (star u v r).
Proof.
  intros Hu Hv Hr A B C D E H.
  assert (P : forall p, In p (star u v r) -> ev A B C D E p = 0) by exact H.
  pose proof (P (u, 0) (or_introl eq_refl)) as P1. pose proof (P (- u, 0) (or_intror (or_introl eq_refl))) as P2. pose proof (P (0, v) (or_intror (or_intror (or_introl eq_refl)))) as P3.
  pose proof (P (0, - v) (or_intror (or_intror (or_intror (or_introl eq_refl))))) as P4. pose proof (P (r, r) (or_intror (or_intror (or_intror (or_intror (or_introl eq_refl)))))) as P5.
  unfold ev in *. cbn [fst snd] in *.
  assert (Z : forall x y, x <> 0 -> y * x = 0 -> y = 0) by (intros x y Nx Hxy; apply Rmult_integral in Hxy as [Hxy|Hxy]; [exact Hxy|contradiction]).
  assert (A = 0) as -> by (apply (Z (u ^ 2)); [apply pow_nonzero, Hu|lra]). assert (D = 0) as -> by (apply (Z u); [exact Hu|lra]).
  assert (C = 0) as -> by (apply (Z (v ^ 2)); [apply pow_nonzero, Hv|lra]). assert (E = 0) as -> by (apply (Z v); [exact Hv|lra]).
  assert (B = 0) as -> by (apply (Z (r * r)); [apply Rmult_integral_contrapositive; auto|lra]). repeat split.
Qed.
Lemma fit_with A B C D E contour : mean_of (map fst contour) = 0 -> mean_of (map snd contour) = 0 -> in_general_position contour -> (forall p, In p contour -> ev A B C D E p = 1) ->
  exists solve, exact_solver solve /\ fit_ellipse solve contour = Ok (fit_from A B C D E 0 0 (length contour)).
Proof.
  intros Mx My G H. destruct (solver_for A B C D E contour G H) as [solve [X S]]. exists solve. split; [exact X|]. unfold fit_ellipse. rewrite (centred_id contour Mx My), S, Mx, My. reflexivity.
Qed.
Lemma star_fit A B C u v r : A * u ^ 2 = 1 -> C * v ^ 2 = 1 -> (A + B + C) * r ^ 2 = 1 ->
  exists solve, exact_solver solve /\ fit_ellipse solve (star u v r) = Ok (fit_from A B C 0 0 0 0 6).
Proof.
  intros Hu Hv Hr. assert (N : forall x y : R, x * y ^ 2 = 1 -> y <> 0) by (intros x y Hxy ->; lra).
  apply (fit_with A B C 0 0 (star u v r)); [apply star_mean|apply star_mean|apply star_general; eapply N; eassumption|].
  intros p Hp. unfold star in Hp. destruct Hp as [<-|[<-|[<-|[<-|[<-|[<-|[]]]]]]]; unfold ev; cbn [fst snd]; ring_simplify; lra.
Qed.
Lemma inv_sqrt_sq A : 0 < A -> A * (1 / sqrt A) ^ 2 = 1.
Proof. intro H. pose proof (sqrt_lt_R0 A H). transitivity (A / sqrt A ^ 2); [field; lra|]. rewrite pow2_sqrt by lra. field. lra. Qed.

(** below the tolerance: x^2 + xy/2000 + (2001/2000) y^2 = 1 *)
Lemma slight_tilt : exists solve contour f th, exact_solver solve /\ Forall (on_conic 1 (1 / 2000) (2001 / 2000) 0 0 0 0) contour /\
  fit_ellipse solve contour = Ok (Some f) /\ f_theta f = Some th /\ tan th = 1 - sqrt 2 /\ sin th < 0 /\
  f_minor f < f_major f /\ forall z, In z (f_points f) -> (fst z / f_major f) ^ 2 + (snd z / f_minor f) ^ 2 = 1.
Proof.
  set (C := 2001 / 2000). set (B := 1 / 2000). assert (HC : 1 < C) by (unfold C; lra).
  destruct (star_fit 1 B C 1 (1 / sqrt C) (1 / sqrt (1 + B + C))) as [solve [X H]]; [lra|apply inv_sqrt_sq; lra|apply inv_sqrt_sq; unfold B; lra|].
  assert (NT : tilted 1 B C = false).
  { destruct (tilted 1 B C) eqn:T; [exfalso|reflexivity]. apply tilted_steep in T as [T _]; [|lra|lra]. unfold tolerance in T. rewrite Rabs_right in T; unfold B in *; lra. }
  assert (O : orientation 1 B C = 0) by (unfold orientation; rewrite NT; reflexivity).
  assert (S1 : sqrt (Rabs (1 / 1)) = 1) by (rewrite Rabs_right by lra; replace (1 / 1) with 1 by field; apply sqrt_1).
  assert (SC : sqrt (Rabs (1 / C)) = 1 / sqrt C). { assert (0 < 1 / C) by (apply Rdiv_lt_0_compat; lra). rewrite Rabs_right by lra. rewrite sqrt_div by lra. rewrite sqrt_1. reflexivity. }
  assert (LC : 1 < sqrt C) by (apply Rle_lt_trans with (sqrt 1); [rewrite sqrt_1; lra|apply sqrt_lt_1; lra]).
  assert (LC2 : 1 / sqrt C < 1). { apply Rmult_lt_reg_r with (sqrt C); [lra|]. unfold Rdiv. rewrite Rmult_assoc, Rinv_l by lra. lra. }
  assert (PC : 0 < 1 / sqrt C) by (apply Rdiv_lt_0_compat; lra).
  assert (E2 : sqrt ((1 - C) ^ 2 + B ^ 2) = B * sqrt 2). { replace ((1 - C) ^ 2 + B ^ 2) with (B² * 2) by (unfold B, C, Rsqr; lra). rewrite sqrt_mult by (try apply Rle_0_sqr; lra). rewrite sqrt_Rsqr by (unfold B; lra). reflexivity. }
  assert (Fit : exists f, fit_from 1 B C 0 0 0 0 6 = Some f /\ f_major f = 1 /\ f_minor f = 1 / sqrt C /\ f_theta f = Some (atan (1 - sqrt 2)) /\
     f_points f = map (fun s => (1 * cos s, 1 / sqrt C * sin s)) (linspace_2pi 6)).
  { unfold fit_from, turned. rewrite NT, O. destruct (Req_EM_T 1 0); [lra|]. destruct (Req_EM_T C 0); [lra|].
    replace (1 + 0 ^ 2 / (4 * 1) + 0 ^ 2 / (4 * C)) with 1 by (field; lra). rewrite S1, SC, cos_0, sin_0. eexists. split; [reflexivity|]. cbn [f_major f_minor f_theta f_points].
    split; [apply Rmax_left; lra|]. split; [apply Rmin_right; lra|]. split.
    - unfold angle_x_axis. destruct (Req_EM_T B 0); [unfold B in *; lra|]. f_equal. f_equal. rewrite E2. unfold B, C. field.
    - apply map_ext. intro s. f_equal; field; lra. }
  destruct Fit as [f [E [EM [Em [Et Ep]]]]]. exists solve, (star 1 (1 / sqrt C) (1 / sqrt (1 + B + C))), f, (atan (1 - sqrt 2)).
  split; [exact X|]. split.
  { apply Forall_forall. intros p Hp. pose proof (inv_sqrt_sq C ltac:(lra)) as I1. pose proof (inv_sqrt_sq (1 + B + C) ltac:(unfold B; lra)) as I2. unfold star in Hp.
    destruct Hp as [<-|[<-|[<-|[<-|[<-|[<-|[]]]]]]]; unfold on_conic; fold B C; cbn [fst snd]; ring_simplify; lra. }
  split; [rewrite H, E; reflexivity|]. split; [exact Et|]. split; [apply tan_atan|]. split.
  { assert (N : 1 - sqrt 2 < 0) by (assert (sqrt 1 < sqrt 2) by (apply sqrt_lt_1; lra); rewrite sqrt_1 in *; lra).
    rewrite sin_atan. apply Rmult_lt_reg_r with (sqrt (1 + (1 - sqrt 2)²)); [apply sqrt_lt_R0; pose proof (Rle_0_sqr (1 - sqrt 2)); lra|].
    rewrite Rmult_0_l. unfold Rdiv. rewrite Rmult_assoc, Rinv_l; [lra|]. apply Rgt_not_eq, sqrt_lt_R0. pose proof (Rle_0_sqr (1 - sqrt 2)). lra. }
  rewrite EM, Em. split; [lra|]. intros z Hz. rewrite Ep in Hz. apply in_map_iff in Hz as [s [<- _]]. cbn [fst snd].
  transitivity (cos s ^ 2 + sin s ^ 2); [field; lra|apply trig1].
Qed.

(** other conics *)
Definition hyperbola_points : list (R * R) := [(1, 0); (-1, 0); (5 / 4, 3 / 4); (5 / 4, - (3 / 4)); (- (5 / 4), 3 / 4); (- (5 / 4), - (3 / 4))].
Lemma hyperbola_accepted : exists solve f, exact_solver solve /\ (forall z, In z hyperbola_points -> fst z ^ 2 - snd z ^ 2 = 1) /\
  fit_ellipse solve hyperbola_points = Ok (Some f) /\ f_major f = 1 /\ f_minor f = 1.
Proof.
  assert (On : forall z, In z hyperbola_points -> fst z ^ 2 - snd z ^ 2 = 1) by (intros z Hz; unfold hyperbola_points in Hz; destruct Hz as [<-|[<-|[<-|[<-|[<-|[<-|[]]]]]]]; cbn [fst snd]; lra).
  destruct (fit_with 1 0 (-1) 0 0 hyperbola_points) as [solve [X H]].
  - unfold hyperbola_points, mean_of. cbn [map fst]. rewrite !Rsum_cons, Rsum_nil. cbn [length INR]. field.
  - unfold hyperbola_points, mean_of. cbn [map snd]. rewrite !Rsum_cons, Rsum_nil. cbn [length INR]. field.
  - intros A B C D E P. unfold hyperbola_points in P.
    pose proof (P (1, 0) ltac:(cbn; auto 10)) as P1. pose proof (P (-1, 0) ltac:(cbn; auto 10)) as P2. pose proof (P (5 / 4, 3 / 4) ltac:(cbn; auto 10)) as P3.
    pose proof (P (5 / 4, - (3 / 4)) ltac:(cbn; auto 10)) as P4. pose proof (P (- (5 / 4), 3 / 4) ltac:(cbn; auto 10)) as P5. unfold ev in *. cbn [fst snd] in *. repeat split; lra.
  - intros z Hz. specialize (On z Hz). unfold ev. lra.
  - assert (NT : tilted 1 0 (-1) = false) by (destruct (tilted 1 0 (-1)) eqn:T; [exfalso; exact (tilted_b _ _ _ T eq_refl)|reflexivity]).
    unfold fit_from, turned in H. rewrite NT in H. destruct (Req_EM_T 1 0); [lra|]. destruct (Req_EM_T (-1) 0); [lra|].
    replace (1 + 0 ^ 2 / (4 * 1) + 0 ^ 2 / (4 * -1)) with 1 in H by field. replace (Rabs (1 / 1)) with 1 in H by (rewrite Rabs_right; lra). replace (Rabs (1 / -1)) with 1 in H by (rewrite Rabs_left; lra).
    rewrite sqrt_1 in H. eexists. eexists. split; [exact X|]. split; [exact On|]. split; [exact H|]. cbn [f_major f_minor]. split; [apply Rmax_left; lra|apply Rmin_left; lra].
Qed.
Definition parabola_points : list (R * R) := app (repeat (0, 1) 6) [(1, 0); (-1, 0); (2, -3); (-2, -3)].
Lemma parabola_not_finite : exists solve, exact_solver solve /\ (forall z, In z parabola_points -> fst z ^ 2 + snd z = 1) /\ fit_ellipse solve parabola_points = Ok None.
Proof.
  assert (On : forall z, In z parabola_points -> fst z ^ 2 + snd z = 1).
  { intros z Hz. unfold parabola_points in Hz. cbn [repeat app] in Hz. cbn [In] in Hz. repeat (destruct Hz as [<-|Hz]; [cbn [fst snd]; lra|]). destruct Hz. }
  destruct (fit_with 1 0 0 0 1 parabola_points) as [solve [X H]].
  - unfold parabola_points, mean_of. cbn [repeat app map fst]. rewrite !Rsum_cons, Rsum_nil. cbn [length INR]. field.
  - unfold parabola_points, mean_of. cbn [repeat app map snd]. rewrite !Rsum_cons, Rsum_nil. cbn [length INR]. field.
  - intros A B C D E P. unfold parabola_points in P.
    pose proof (P (0, 1) ltac:(cbn; auto 12)) as P0. pose proof (P (1, 0) ltac:(cbn; auto 12)) as P1. pose proof (P (-1, 0) ltac:(cbn; auto 12)) as P2. pose proof (P (2, -3) ltac:(cbn; auto 12)) as P3.
    pose proof (P (-2, -3) ltac:(cbn; auto 12)) as P4. unfold ev in *. cbn [fst snd] in *. repeat split; lra.
  - intros z Hz. specialize (On z Hz). unfold ev. lra.
  - exists solve. split; [exact X|]. split; [exact On|]. rewrite H. f_equal. unfold fit_from, turned.
    assert (NT : tilted 1 0 0 = false) by (destruct (tilted 1 0 0) eqn:T; [exfalso; exact (tilted_b _ _ _ T eq_refl)|reflexivity]). rewrite NT.
    destruct (Req_EM_T 1 0); [lra|]. destruct (Req_EM_T 0 0); [reflexivity|lra].
Qed.

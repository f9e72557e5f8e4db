From Coq Require Import Reals Lra Lia Psatz.
From Verif Require Import M_Base M_Gauss M_Ellipse S_Ellipse L_Ellipse.
Open Scope R_scope.

(** *** shape of the result *)
Lemma linspace_length n : length (linspace_2pi n) = n.
Proof. unfold linspace_2pi. rewrite map_length, seq_length. reflexivity. Qed.
Lemma linspace_first n : (0 < n)%nat -> hd_error (linspace_2pi n) = Some 0.
Proof.
  intro H. destruct n as [|n]; [lia|]. unfold linspace_2pi. cbn [seq map hd_error]. destruct (Nat.eqb (S n) 1); [reflexivity|]. f_equal. cbn [INR]. unfold Rdiv. ring.
Qed.
Lemma seq_last n : seq 0 (S n) = app (seq 0 n) [n].
Proof. rewrite seq_S. reflexivity. Qed.
Lemma last_snoc' {A} (l : list A) a x : last (app l [a]) x = a.
Proof. induction l as [|b l IH]; [reflexivity|]. cbn. rewrite IH. destruct (app l [a]) eqn:E; [destruct l; discriminate|reflexivity]. Qed.
Lemma linspace_last n x : (0 < n)%nat -> last (linspace_2pi n) x = if Nat.eqb n 1 then 0 else 2 * PI.
Proof.
  intro H. destruct n as [|n]; [lia|]. unfold linspace_2pi. rewrite seq_last, map_app. cbn [map]. rewrite last_snoc'. destruct (Nat.eqb_spec (S n) 1) as [E|E]; [reflexivity|].
  replace (S n - 1)%nat with n by lia. field. apply not_0_INR. lia.
Qed.
Lemma last_map {A B} (f : A -> B) l x : last (map f l) (f x) = f (last l x).
Proof. induction l as [|a l IH]; [reflexivity|]. destruct l; [reflexivity|]. exact IH. Qed.
Lemma hd_map {A B} (f : A -> B) l : hd_error (map f l) = option_map f (hd_error l).
Proof. destruct l; reflexivity. Qed.
Lemma fit_shape a b c d e mx my n f : fit_from a b c d e mx my n = Some f ->
  0 <= f_minor f <= f_major f /\ length (f_points f) = n /\
  (exists h k phi p q, ((f_major f = p /\ f_minor f = q) \/ (f_major f = q /\ f_minor f = p)) /\
     (forall z, In z (f_points f) -> exists tau, z = ellipse_point h k p q phi tau)) /\
  (forall z, hd_error (f_points f) = Some z -> last (f_points f) z = z).
Proof.
  unfold fit_from. destruct (turned a b c d e mx my) as [[[[[a1 c1] d1] e1] mx1] my1]. destruct (Req_EM_T a1 0) as [|Na]; [discriminate|]. destruct (Req_EM_T c1 0) as [|Nc]; [discriminate|].
  set (F := 1 + d1 ^ 2 / (4 * a1) + e1 ^ 2 / (4 * c1)). set (p := sqrt (Rabs (F / a1))). set (q := sqrt (Rabs (F / c1))). intro E. injection E as <-. cbn [f_major f_minor f_points].
  assert (0 <= p) by apply sqrt_pos. assert (0 <= q) by apply sqrt_pos.
  split; [|split; [rewrite map_length; apply linspace_length|split]].
  - split; [apply Rmin_glb; assumption|]. apply Rle_trans with p; [apply Rmin_l|apply Rmax_l].
  - set (cs := cos (orientation a b c)). set (sn := sin (orientation a b c)). set (X0 := mx1 - d1 / 2 / a1). set (Y0 := my1 - e1 / 2 / c1).
    exists (cs * X0 + sn * Y0), (- sn * X0 + cs * Y0), (orientation a b c), p, q. split.
    + destruct (Rle_dec p q) as [L|L]; [right; rewrite Rmax_right, Rmin_left by exact L; auto|left; rewrite Rmax_left, Rmin_right by lra; auto].
    + intros z Hz. apply in_map_iff in Hz as [t [<- _]]. exists t. unfold ellipse_point. fold cs sn. f_equal; ring.
  - intros z Hz. destruct n as [|n]; [discriminate|]. rewrite hd_map, linspace_first in Hz by lia. injection Hz as <-.
    match goal with |- last (map ?g ?l) ?z = ?z => refine (eq_trans (last_map g l 0) _) end. rewrite linspace_last by lia. destruct (Nat.eqb (S n) 1); [reflexivity|].
    rewrite cos_2PI, sin_2PI, cos_0, sin_0. reflexivity.
Qed.

(** *** smallest eigenvalue and direction *)
Definition disc (a b c : R) : R := sqrt ((a - c) ^ 2 + b ^ 2).
Definition lmin (a b c : R) : R := (a + c - disc a b c) / 2.
Lemma disc_sq a b c : disc a b c ^ 2 = (a - c) ^ 2 + b ^ 2.
Proof. unfold disc. rewrite <- Rsqr_pow2. apply Rsqr_sqrt. pose proof (sqp (a - c)). pose proof (sqp b). lra. Qed.
Lemma disc_nonneg a b c : 0 <= disc a b c. Proof. apply sqrt_pos. Qed.
Lemma lmin_char a b c : (a - lmin a b c) * (c - lmin a b c) = b ^ 2 / 4.
Proof.
  unfold lmin. pose proof (disc_sq a b c) as S. set (s := disc a b c) in *. transitivity ((s ^ 2 - (a - c) ^ 2) / 4); [field|]. rewrite S. field.
Qed.
Lemma lmin_le a b c : lmin a b c <= a /\ lmin a b c <= c.
Proof.
  unfold lmin. pose proof (disc_sq a b c) as S. pose proof (disc_nonneg a b c). set (s := disc a b c) in *. pose proof (sqp b).
  assert (Rabs (a - c) <= s). { apply Rsqr_le_abs_0_alt || idtac. rewrite <- (Rabs_right s) by lra. apply Rsqr_le_abs_0. rewrite !Rsqr_pow2. lra. }
  destruct (Rcase_abs (a - c)) as [G|G]; [rewrite Rabs_left in H1 by lra|rewrite Rabs_right in H1 by lra]; split; lra.
Qed.
Lemma lmin_pos a b c : 0 < a -> b ^ 2 < 4 * a * c -> 0 < lmin a b c.
Proof.
  intros Ha Hd. unfold lmin. pose proof (disc_sq a b c) as S. pose proof (disc_nonneg a b c). set (s := disc a b c) in *. assert (0 < c) by nra.
  assert (s < a + c); [|lra]. assert (s ^ 2 < (a + c) ^ 2) by nra. nra.
Qed.
Lemma quad_ge_lmin a b c x y : lmin a b c * (x ^ 2 + y ^ 2) <= a * x ^ 2 + b * x * y + c * y ^ 2.
Proof.
  pose proof (lmin_char a b c) as L. pose proof (lmin_le a b c) as [La Lc]. set (l := lmin a b c) in *. set (u := a - l) in *. set (v := c - l) in *.
  assert (G : 0 <= u * x ^ 2 + b * x * y + v * y ^ 2).
  { assert (0 <= u) by (unfold u; lra). assert (0 <= v) by (unfold v; lra). destruct (Req_dec u 0) as [Eu|Nu].
    - assert (b = 0) by (apply sq_zero; rewrite Eu in L; lra). rewrite Eu, H1. pose proof (sqp y). nra.
    - assert (Hu : 0 < u) by lra. assert (Z : 0 <= u * (u * x ^ 2 + b * x * y + v * y ^ 2)).
      { replace (u * (u * x ^ 2 + b * x * y + v * y ^ 2)) with ((u * x + b / 2 * y) ^ 2 + (u * v - b ^ 2 / 4) * y ^ 2) by field. rewrite L. pose proof (sqp (u * x + b / 2 * y)). lra. }
      apply Rmult_le_reg_l with u; [exact Hu|]. lra. }
  replace (a * x ^ 2 + b * x * y + c * y ^ 2) with (u * x ^ 2 + b * x * y + v * y ^ 2 + l * (x ^ 2 + y ^ 2)) by (unfold u, v; ring). lra.
Qed.
Lemma theta_eigen a b c th : angle_x_axis a b c = Some th -> a * cos th ^ 2 + b * cos th * sin th + c * sin th ^ 2 = lmin a b c.
Proof.
  unfold angle_x_axis. intro H. pose proof (disc_sq a b c) as S. pose proof (disc_nonneg a b c) as S0. destruct (Req_EM_T b 0) as [->|Nb].
  - replace ((a - c) ^ 2 + 0 ^ 2) with ((a - c)²) in * by (unfold Rsqr; ring). destruct (Rlt_dec a c) as [L|L]; [|destruct (Rlt_dec c a) as [L'|L']; [|discriminate]]; injection H as <-.
    + rewrite cos_0, sin_0. unfold lmin, disc. replace ((a - c) ^ 2 + 0 ^ 2) with ((c - a)²) by (unfold Rsqr; ring). rewrite sqrt_Rsqr by lra. field.
    + rewrite cos_PI2, sin_PI2. unfold lmin, disc. replace ((a - c) ^ 2 + 0 ^ 2) with ((a - c)²) by (unfold Rsqr; ring). rewrite sqrt_Rsqr by lra. field.
  - assert (Eth : th = atan ((c - a - disc a b c) / b)) by (unfold disc; congruence). rewrite Eth. clear H Eth. pose proof (lmin_char a b c) as L. set (l := lmin a b c) in *. set (s := disc a b c) in *. set (t := (c - a - s) / b).
    assert (Et : b * t = 2 * (l - a)) by (unfold t, l, lmin; fold s; field; exact Nb).
    assert (Ec : (c - l) * t = - b / 2). { apply Rmult_eq_reg_l with b; [|exact Nb]. replace (b * ((c - l) * t)) with ((c - l) * (b * t)) by ring. rewrite Et.
      transitivity (-2 * ((a - l) * (c - l))); [ring|rewrite L; field]. }
    rewrite sin_atan, cos_atan. set (w := sqrt (1 + t²)). assert (W : w ^ 2 = 1 + t ^ 2) by (unfold w; rewrite <- Rsqr_pow2, Rsqr_sqrt, Rsqr_pow2; [reflexivity|pose proof (Rle_0_sqr t); lra]).
    assert (W0 : 0 < w) by (apply sqrt_lt_R0; pose proof (Rle_0_sqr t); lra).
    transitivity ((a + b * t + c * t ^ 2) / w ^ 2); [field; lra|]. rewrite W. pose proof (sqp t).
    assert (E : a + b * t + c * t ^ 2 = l * (1 + t ^ 2)); [|rewrite E; field; lra].
    transitivity ((a + b * t + l * t ^ 2) + ((c - l) * t) * t); [ring|]. rewrite Ec. lra.
Qed.
(** The coefficients of the turned conic are the two eigenvalues. *)
Lemma turned_eigen {a b c d e mx my cs sn a1 c1 d1 e1 mx1 my1} (T : turning a b c d e mx my cs sn a1 c1 d1 e1 mx1 my1) :
  (a1 = lmin a b c /\ lmin a b c <= c1) \/ (c1 = lmin a b c /\ lmin a b c <= a1).
Proof.
  pose proof (turn_trace T) as S. pose proof (turn_det T) as P. pose proof (disc_sq a b c) as D. pose proof (disc_nonneg a b c) as D0. unfold lmin. set (s := disc a b c) in *.
  assert (E : (a1 - c1) ^ 2 = s ^ 2) by (transitivity ((a1 + c1) ^ 2 - 4 * a1 * c1); [ring|rewrite S, P, D; ring]).
  assert (a1 - c1 = s \/ a1 - c1 = - s) as [K|K].
  { assert (Z : (a1 - c1 - s) * (a1 - c1 + s) = 0) by (transitivity ((a1 - c1) ^ 2 - s ^ 2); [ring|lra]). apply Rmult_integral in Z as [Z|Z]; [left|right]; lra. }
  - right. split; lra.
  - left. split; lra.
Qed.
Lemma major_sq a b c d e mx my n f : tilted a b c = true \/ b = 0 -> 0 < a -> b ^ 2 < 4 * a * c -> fit_from a b c d e mx my n = Some f ->
  exists F, f_major f ^ 2 * lmin a b c = F /\ F * (4 * a * c - b ^ 2) = (4 * a * c - b ^ 2) + (c * d ^ 2 - b * d * e + a * e ^ 2) /\ 0 < F /\ f_theta f = angle_x_axis a b c.
Proof.
  intros HT Ha Hd E. destruct (turned_ok a b c d e mx my HT) as [cs [sn [a1 [c1 [d1 [e1 [mx1 [my1 [Et T]]]]]]]]].
  destruct (turn_pos T Ha Hd) as [Pa Pc]. rewrite (fit_from_eval _ _ _ _ _ _ _ n _ _ _ _ _ _ _ _ Et (tu_cs _ _ _ _ _ _ _ _ _ _ _ _ _ _ _ T) (tu_sn _ _ _ _ _ _ _ _ _ _ _ _ _ _ _ T)) in E.
  destruct (Req_EM_T a1 0); [lra|]. destruct (Req_EM_T c1 0); [lra|]. injection E as <-. cbn [f_major f_theta].
  set (F := Fof a1 c1 d1 e1). pose proof (F_ge_1 a1 c1 d1 e1 Pa Pc) as HF. fold F in HF. exists F. split; [|split; [|split; [lra|reflexivity]]].
  - assert (Ka : 0 < F / a1) by (apply Rdiv_lt_0_compat; lra). assert (Kc : 0 < F / c1) by (apply Rdiv_lt_0_compat; lra).
    rewrite (Rabs_right (F / a1)), (Rabs_right (F / c1)) by lra.
    assert (M : forall x y, 0 < x -> x <= y -> F / y <= F / x).
    { intros x y Hx Hxy. apply Rmult_le_compat_l; [lra|]. apply Rinv_le_contravar; lra. }
    assert (Q : forall x, 0 < x -> sqrt (F / x) ^ 2 * x = F). { intros x Hx. rewrite <- Rsqr_pow2, Rsqr_sqrt by (left; apply Rdiv_lt_0_compat; lra). field. lra. }
    destruct (turned_eigen T) as [[<- L]|[<- L]].
    + rewrite Rmax_left by (apply sqrt_le_1; [lra|lra|apply M; lra]). apply Q, Pa.
    + rewrite Rmax_right by (apply sqrt_le_1; [lra|lra|apply M; lra]). apply Q, Pc.
  - rewrite <- (turn_det T), <- (turn_adj T). unfold F, Fof. field. lra.
Qed.

(** *** the conic around its centre *)
Lemma centre_exists a b c d e mx my : 0 < a -> b ^ 2 < 4 * a * c -> exists h k, conic_centre a b c d e mx my h k.
Proof.
  intros Ha Hd. set (D := 4 * a * c - b ^ 2). assert (0 < D) by (unfold D; lra). exists (mx + (b * e - 2 * c * d) / D), (my + (b * d - 2 * a * e) / D). unfold conic_centre.
  split; unfold D in *; field; lra.
Qed.
Lemma conic_at_centre a b c d e mx my h k : b ^ 2 < 4 * a * c -> conic_centre a b c d e mx my h k ->
  forall F, F * (4 * a * c - b ^ 2) = (4 * a * c - b ^ 2) + (c * d ^ 2 - b * d * e + a * e ^ 2) ->
  forall x y, on_conic a b c d e mx my (x, y) <-> a * (x - h) ^ 2 + b * (x - h) * (y - k) + c * (y - k) ^ 2 = F.
Proof.
  intros Hd [C1 C2] F HF x y. unfold on_conic. cbn [fst snd]. set (u := h - mx) in *. set (v := k - my) in *.
  assert (Ed : d = - (2 * a * u + b * v)) by lra. assert (Ee : e = - (b * u + 2 * c * v)) by lra.
  assert (HF' : F = 1 + (a * u ^ 2 + b * u * v + c * v ^ 2)).
  { apply Rmult_eq_reg_r with (4 * a * c - b ^ 2); [|lra]. rewrite HF, Ed, Ee. ring. }
  assert (I : a * (x - mx) ^ 2 + b * (x - mx) * (y - my) + c * (y - my) ^ 2 + d * (x - mx) + e * (y - my) =
    a * (x - h) ^ 2 + b * (x - h) * (y - k) + c * (y - k) ^ 2 - (a * u ^ 2 + b * u * v + c * v ^ 2)) by (rewrite Ed, Ee; unfold u, v; ring).
  rewrite I, HF'. split; lra.
Qed.
Lemma direction_of_major a b c d e mx my n f th : tilted a b c = true \/ b = 0 -> 0 < a -> b ^ 2 < 4 * a * c -> fit_from a b c d e mx my n = Some f -> f_theta f = Some th ->
  exists h k, conic_centre a b c d e mx my h k /\ on_conic a b c d e mx my (h + f_major f * cos th, k + f_major f * sin th) /\
    forall x y, on_conic a b c d e mx my (x, y) -> (x - h) ^ 2 + (y - k) ^ 2 <= f_major f ^ 2.
Proof.
  intros HT Ha Hd E Hth. destruct (major_sq _ _ _ _ _ _ _ _ _ HT Ha Hd E) as [F [EM [EF [HF Et]]]]. rewrite Et in Hth.
  destruct (centre_exists a b c d e mx my Ha Hd) as [h [k C]]. exists h, k. split; [exact C|]. pose proof (conic_at_centre _ _ _ _ _ _ _ _ _ Hd C F EF) as I. split.
  - apply I. replace (h + f_major f * cos th - h) with (f_major f * cos th) by ring. replace (k + f_major f * sin th - k) with (f_major f * sin th) by ring.
    rewrite <- EM, <- (theta_eigen _ _ _ _ Hth). ring.
  - intros x y Hz. apply I in Hz. pose proof (quad_ge_lmin a b c (x - h) (y - k)) as Q. rewrite Hz, <- EM in Q. pose proof (lmin_pos a b c Ha Hd). 
    apply Rmult_le_reg_l with (lmin a b c); [assumption|]. lra.
Qed.

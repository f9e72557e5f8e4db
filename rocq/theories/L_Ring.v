(** Lemmas: fits of contours in other orders; Frechet distances of polygons on ellipses *)
From Coq Require Import Reals Lra Lia Psatz Permutation List.
From Flocq Require Import Raux.
From Verif Require Import M_Base M_Gauss M_Ellipse S_Ellipse L_Ellipse L_Ellipse2 L_Ellipse3 L_Ellipse4 M_Frechet S_Frechet L_Frechet L_Frechet2 L_Frechet3 S_Ring.
Import ListNotations.
Open Scope R_scope.

(** *** order of the vertices *)
Lemma Rsum_perm l l' : Permutation l l' -> Rsum l = Rsum l'.
Proof. intro H. induction H; rewrite ?Rsum_cons; try lra; rewrite ?IHPermutation, ?IHPermutation1, ?IHPermutation2; reflexivity. Qed.
Lemma mean_perm l l' : Permutation l l' -> mean_of l = mean_of l'.
Proof. intro H. unfold mean_of. rewrite (Rsum_perm _ _ H), (Permutation_length H). reflexivity. Qed.
Lemma normal_perm l l' : Permutation l l' -> normal_matrix l = normal_matrix l' /\ column_sums l = column_sums l'.
Proof.
  intro H. unfold normal_matrix, column_sums. split; apply map_ext; intro f; [apply map_ext; intro g|]; apply Rsum_perm, Permutation_map, H.
Qed.
Lemma centred_perm l l' : Permutation l l' -> Permutation (centred l) (centred l').
Proof. intro H. unfold centred. rewrite (mean_perm _ _ (Permutation_map fst H)), (mean_perm _ _ (Permutation_map snd H)). apply Permutation_map, H. Qed.
Lemma fit_perm solve c c' : Permutation c c' -> fit_ellipse solve c = fit_ellipse solve c'.
Proof.
  intro H. unfold fit_ellipse. destruct (normal_perm _ _ (centred_perm _ _ H)) as [-> ->]. rewrite (mean_perm _ _ (Permutation_map fst H)), (mean_perm _ _ (Permutation_map snd H)), (Permutation_length H). reflexivity.
Qed.

(** *** couplings pass every level of i + j within one *)
Lemma linked_level t : forall a m, linked a t -> (fst a + snd a <= m)%nat -> (m < fst (last (a :: t) a) + snd (last (a :: t) a))%nat ->
  exists ij, In ij (a :: t) /\ (m <= fst ij + snd ij <= m + 1)%nat.
Proof.
  induction t as [|b t IH]; intros a m L Ha Hm; [cbn in Hm; lia|]. destruct L as [A L].
  destruct (le_lt_dec m (fst a + snd a)) as [E|E]; [exists a; split; [left; reflexivity|lia]|].
  assert (B : (fst b + snd b <= fst a + snd a + 2)%nat) by (destruct A as [A|[A|A]]; rewrite A; cbn [fst snd]; lia).
  destruct (le_lt_dec m (fst b + snd b)) as [F|F]; [exists b; split; [right; left; reflexivity|lia]|].
  rewrite (last_cons_indep (b :: t) a a b) in Hm. change (last (a :: b :: t) b) with (last (b :: t) b) in Hm.
  destruct (IH b m L ltac:(lia) Hm) as (ij & I & J). exists ij. split; [right; exact I|exact J].
Qed.
Lemma coupling_level n l m : coupling (S n) (S n) l -> (m < 2 * n)%nat -> exists ij, In ij l /\ (m <= fst ij + snd ij <= m + 1)%nat.
Proof.
  intros (t & -> & L & E) H. apply linked_level; [exact L|cbn; lia|]. rewrite E. cbn [fst snd]. lia.
Qed.

(** *** chords *)
Lemma sq_le_dist u v x : 0 <= x -> x ^ 2 <= (fst u - fst v) ^ 2 + (snd u - snd v) ^ 2 -> x <= dist u v.
Proof. intros H Q. unfold dist. rewrite <- (sqrt_pow2 x H). apply sqrt_le_1_alt. unfold Rsqr. lra. Qed.
Lemma dist_le_sq u v x : 0 <= x -> (fst u - fst v) ^ 2 + (snd u - snd v) ^ 2 <= x ^ 2 -> dist u v <= x.
Proof. intros H Q. unfold dist. rewrite <- (sqrt_pow2 x H). apply sqrt_le_1_alt. unfold Rsqr. lra. Qed.
Lemma chord_sq h k p q phi s t : (fst (ellipse_point h k p q phi s) - fst (ellipse_point h k p q phi t)) ^ 2 + (snd (ellipse_point h k p q phi s) - snd (ellipse_point h k p q phi t)) ^ 2 =
  4 * sin ((s - t) / 2) ^ 2 * (p ^ 2 * sin ((s + t) / 2) ^ 2 + q ^ 2 * cos ((s + t) / 2) ^ 2).
Proof.
  unfold ellipse_point. cbn [fst snd]. set (u := (s + t) / 2). set (v := (s - t) / 2). replace s with (u + v) by (unfold u, v; field). replace t with (u - v) by (unfold u, v; field).
  rewrite cos_plus, cos_minus, sin_plus, sin_minus. assert (P : sin phi * sin phi + cos phi * cos phi = 1) by (pose proof (sin2_cos2 phi); unfold Rsqr in *; lra).
  transitivity (4 * sin v ^ 2 * (p ^ 2 * sin u ^ 2 + q ^ 2 * cos u ^ 2) * (sin phi * sin phi + cos phi * cos phi)); [ring|rewrite P; ring].
Qed.
Lemma one_sq u : sin u ^ 2 + cos u ^ 2 = 1.
Proof. pose proof (sin2_cos2 u). unfold Rsqr in *. lra. Qed.
Lemma chord_ge h k p q phi s t : 0 < p -> 0 < q -> 2 * Rmin p q * Rabs (sin ((s - t) / 2)) <= dist (ellipse_point h k p q phi s) (ellipse_point h k p q phi t).
Proof.
  intros Hp Hq. assert (M : 0 < Rmin p q) by (apply Rmin_pos; assumption). apply sq_le_dist; [pose proof (Rabs_pos (sin ((s - t) / 2))); nra|]. rewrite chord_sq.
  set (u := (s + t) / 2). set (w := sin ((s - t) / 2)). replace ((2 * Rmin p q * Rabs w) ^ 2) with (4 * w ^ 2 * (Rmin p q ^ 2)) by (rewrite !Rpow_mult_distr, pow2_abs; ring).
  apply Rmult_le_compat_l; [pose proof (pow2_ge_0 w); lra|]. pose proof (one_sq u) as O. pose proof (pow2_ge_0 (sin u)). pose proof (pow2_ge_0 (cos u)).
  assert (A : Rmin p q ^ 2 <= p ^ 2) by (apply pow_incr; split; [lra|apply Rmin_l]). assert (B : Rmin p q ^ 2 <= q ^ 2) by (apply pow_incr; split; [lra|apply Rmin_r]). nra.
Qed.
Lemma chord_le h k p q phi s t : 0 < p -> 0 < q -> dist (ellipse_point h k p q phi s) (ellipse_point h k p q phi t) <= 2 * Rmax p q * Rabs (sin ((s - t) / 2)).
Proof.
  intros Hp Hq. assert (M : 0 < Rmax p q) by (apply Rlt_le_trans with p; [exact Hp|apply Rmax_l]). apply dist_le_sq; [pose proof (Rabs_pos (sin ((s - t) / 2))); nra|]. rewrite chord_sq.
  set (u := (s + t) / 2). set (w := sin ((s - t) / 2)). replace ((2 * Rmax p q * Rabs w) ^ 2) with (4 * w ^ 2 * (Rmax p q ^ 2)) by (rewrite !Rpow_mult_distr, pow2_abs; ring).
  apply Rmult_le_compat_l; [pose proof (pow2_ge_0 w); lra|]. pose proof (one_sq u) as O. pose proof (pow2_ge_0 (sin u)). pose proof (pow2_ge_0 (cos u)).
  assert (A : p ^ 2 <= Rmax p q ^ 2) by (apply pow_incr; split; [lra|apply Rmax_l]). assert (B : q ^ 2 <= Rmax p q ^ 2) by (apply pow_incr; split; [lra|apply Rmax_r]). nra.
Qed.
Lemma circle_ellipse r h k t : on_circle r h k t = ellipse_point h k r r 0 t.
Proof. unfold on_circle, ellipse_point. rewrite cos_0, sin_0. f_equal; ring. Qed.
Lemma circle_chord r h k s t : 0 < r -> dist (on_circle r h k s) (on_circle r h k t) = 2 * r * Rabs (sin ((s - t) / 2)).
Proof.
  intro Hr. rewrite !circle_ellipse. pose proof (chord_ge h k r r 0 s t Hr Hr) as A. pose proof (chord_le h k r r 0 s t Hr Hr) as B. rewrite Rmin_left in A by lra. rewrite Rmax_left in B by lra. lra.
Qed.

(** *** polygons on an ellipse *)
Section Poly.
Variables (f : R -> point) (n : nat).
Hypothesis Hn : (2 <= n)%nat.
Definition up (j i : nat) : R := 2 * PI * (INR j + INR i) / INR n.
Definition down (j i : nat) : R := 2 * PI * (INR j - INR i) / INR n.
Lemma Nn : 0 < INR n. Proof. apply lt_0_INR. lia. Qed.
Lemma poly_nth (g : nat -> R) i : (i <= n)%nat -> nth_error (map (fun i => f (g i)) (seq 0 (S n))) i = Some (f (g i)).
Proof. intro H. apply (map_nth_error (fun i => f (g i))). rewrite (nth_error_nth' _ O) by (rewrite seq_length; lia). rewrite seq_nth by lia. reflexivity. Qed.
Lemma poly_length (g : nat -> R) : length (map (fun i => f (g i)) (seq 0 (S n))) = S n.
Proof. rewrite map_length, seq_length. reflexivity. Qed.
Lemma half_down j i i' : (down j i - up 0 i') / 2 = PI * (INR j - INR (i + i')) / INR n.
Proof. pose proof Nn. unfold down, up. rewrite plus_INR. cbn [INR]. field. lra. Qed.
(** Opposite points: the difference is half a turn within one step *)
Lemma opposite j s : (j + Nat.div2 n <= s <= j + Nat.div2 n + 1)%nat -> cos (PI / INR n) <= Rabs (sin (PI * (INR j - INR s) / INR n)).
Proof.
  intro H. pose proof Nn as N. pose proof PI_RGT_0 as P. set (d := PI * (INR s - INR j - INR n / 2) / INR n).
  assert (B : Rabs (INR s - INR j - INR n / 2) <= 1).
  { assert (E : (Nat.div2 n * 2 <= n <= Nat.div2 n * 2 + 1)%nat) by (pose proof (Nat.div2_odd n) as D; destruct (Nat.odd n); cbn [Nat.b2n] in D; lia).
    destruct E as [E1 E2]. destruct H as [H1 H2]. apply le_INR in E1, E2, H1, H2. rewrite ?plus_INR, ?mult_INR in *. change (INR 1) with 1 in *. change (INR 2) with 2 in *. apply Rabs_le. lra. }
  assert (Bd : Rabs d <= PI / INR n).
  { unfold d, Rdiv. rewrite !Rabs_mult, (Rabs_pos_eq PI), (Rabs_pos_eq (/ INR n)); [|left; apply Rinv_0_lt_compat, N|lra]. apply Rmult_le_compat_r; [left; apply Rinv_0_lt_compat, N|]. pose proof (Rabs_pos (INR s - INR j - INR n / 2)). fold (INR n / 2) in *. nra. }
  assert (PN : PI / INR n <= PI / 2) by (unfold Rdiv; apply Rmult_le_compat_l; [lra|]; apply Rinv_le_contravar; [lra|]; apply le_INR in Hn; cbn in Hn; lra).
  replace (PI * (INR j - INR s) / INR n) with (- (PI / 2 + d)) by (unfold d; field; lra). rewrite sin_neg, Rabs_Ropp, <- cos_sin. rewrite <- (Rabs_pos_eq (cos d)).
  2:{ apply cos_ge_0; apply Rabs_le_inv in Bd; lra. }
  rewrite Rabs_Rabsolu. rewrite Rabs_pos_eq by (apply cos_ge_0; apply Rabs_le_inv in Bd; lra).
  destruct (Rle_dec 0 d) as [D|D].
  - apply cos_decr_1; apply Rabs_le_inv in Bd; lra.
  - rewrite <- (cos_neg d). apply cos_decr_1; apply Rabs_le_inv in Bd; lra.
Qed.
(** Every coupling of a clockwise and an anticlockwise list has two nearly opposite points *)
Lemma clockwise_far K d j : (j <= n)%nat -> 0 <= K -> (forall s t, K * Rabs (sin ((s - t) / 2)) <= dist (f s) (f t)) ->
  is_frechet (map (fun i => f (down j i)) (seq 0 (S n))) (map (fun i => f (up 0 i)) (seq 0 (S n))) d -> K * cos (PI / INR n) <= d.
Proof.
  intros Hj HK C [(l & Hc & Hl) _]. rewrite !poly_length in Hc.
  assert (D2 : (Nat.div2 n * 2 <= n)%nat) by (pose proof (Nat.div2_odd n) as D; lia).
  destruct (coupling_level n l (j + Nat.div2 n) Hc ltac:(lia)) as (ij & I & J).
  assert (Rg : (fst ij <= n /\ snd ij <= n)%nat).
  { destruct Hc as (t & -> & L & E). pose proof (linked_last_mono t _ L ij I) as [M _]. rewrite E in M. cbn [fst snd] in M. lia. }
  destruct Hl as [_ Hl]. specialize (Hl ij (dist (f (down j (fst ij))) (f (up 0 (snd ij)))) I).
  apply Rle_trans with (2 := Hl ltac:(exists (f (down j (fst ij))), (f (up 0 (snd ij))); split; [apply poly_nth; lia|split; [apply poly_nth; lia|reflexivity]])).
  apply Rle_trans with (2 := C _ _). rewrite half_down. apply Rmult_le_compat_l; [exact HK|]. apply opposite. exact J.
Qed.
(** Lengths *)
Lemma arc_poly_le (g : nat -> R) K : (forall s t, dist (f s) (f t) <= K * Rabs (sin ((s - t) / 2))) -> (forall i, Rabs (sin ((g i - g (S i)) / 2)) = sin (PI / INR n)) ->
  forall m a, arc_length (map (fun i => f (g i)) (seq a (S m))) <= INR m * (K * sin (PI / INR n)).
Proof.
  intros C G. induction m as [|m IH]; intro a; [cbn; unfold arc_length; cbn; lra|]. change (seq a (S (S m))) with (a :: seq (S a) (S m)). cbn [map]. change (seq (S a) (S m)) with (S a :: seq (S (S a)) m). cbn [map]. rewrite arc_cons.
  specialize (IH (S a)). change (seq (S a) (S m)) with (S a :: seq (S (S a)) m) in IH. cbn [map] in IH. specialize (C (g a) (g (S a))). rewrite G in C. rewrite S_INR. lra.
Qed.
Lemma arc_poly_eq (g : nat -> R) K : (forall s t, dist (f s) (f t) = K * Rabs (sin ((s - t) / 2))) -> (forall i, Rabs (sin ((g i - g (S i)) / 2)) = sin (PI / INR n)) ->
  forall m a, arc_length (map (fun i => f (g i)) (seq a (S m))) = INR m * (K * sin (PI / INR n)).
Proof.
  intros C G. induction m as [|m IH]; intro a; [cbn; unfold arc_length; cbn; lra|]. change (seq a (S (S m))) with (a :: seq (S a) (S m)). cbn [map]. change (seq (S a) (S m)) with (S a :: seq (S (S a)) m). cbn [map]. rewrite arc_cons.
  specialize (IH (S a)). change (seq (S a) (S m)) with (S a :: seq (S (S a)) m) in IH. cbn [map] in IH. specialize (C (g a) (g (S a))). rewrite G in C. rewrite S_INR. lra.
Qed.
Lemma step_small : 0 < PI / INR n <= PI / 2.
Proof.
  pose proof Nn. pose proof PI_RGT_0. split; [apply Rdiv_lt_0_compat; lra|]. unfold Rdiv. apply Rmult_le_compat_l; [lra|]. apply Rinv_le_contravar; [lra|]. apply le_INR in Hn. cbn in Hn. lra.
Qed.
Lemma step_sin_pos : 0 < sin (PI / INR n).
Proof. pose proof step_small. pose proof PI_RGT_0. apply sin_gt_0; lra. Qed.
Lemma step_down j i : Rabs (sin ((down j i - down j (S i)) / 2)) = sin (PI / INR n).
Proof.
  pose proof Nn. replace ((down j i - down j (S i)) / 2) with (PI / INR n) by (unfold down; rewrite S_INR; field; lra). apply Rabs_pos_eq. left. exact step_sin_pos.
Qed.
Lemma step_up j i : Rabs (sin ((up j i - up j (S i)) / 2)) = sin (PI / INR n).
Proof.
  pose proof Nn. replace ((up j i - up j (S i)) / 2) with (- (PI / INR n)) by (unfold up; rewrite S_INR; field; lra). rewrite sin_neg, Rabs_Ropp. apply Rabs_pos_eq. left. exact step_sin_pos.
Qed.
Lemma n_sin : INR n * sin (PI / INR n) <= PI.
Proof.
  pose proof Nn. pose proof step_small. assert (sin (PI / INR n) < PI / INR n) by (apply sin_lt_x; lra). apply Rle_trans with (INR n * (PI / INR n)); [apply Rmult_le_compat_l; lra|]. right. field. lra.
Qed.
End Poly.

(** *** the fit of a circle *)
Lemma circle_on r h k t : 0 < r -> on_ellipse h k r r 0 (on_circle r h k t).
Proof. intro H. unfold on_ellipse, on_circle. cbn [fst snd]. rewrite cos_0, sin_0. transitivity (sin t ^ 2 + cos t ^ 2); [field; lra|apply one_sq]. Qed.
Lemma circle_fit solve contour h k r u : exact_solver solve -> 0 < r -> Forall (on_ellipse h k r r 0) contour -> fit_ellipse solve contour = Ok u ->
  exists f, u = Some f /\ f_points f = map (on_circle r h k) (linspace_2pi (length contour)) /\ f_major f = r /\ f_minor f = r.
Proof.
  intros X Hr On H. destruct (exact_fit solve contour h k r r 0 X Hr Hr On u H) as (K & HK & EK & ->). clear H.
  set (mx := mean_of (map fst contour)) in *. set (my := mean_of (map snd contour)) in *.
  assert (A : coef_xx r r 0 = 1 / r ^ 2) by (unfold coef_xx; rewrite cos_0, sin_0; field; lra). assert (B : coef_xy r r 0 = 0) by (unfold coef_xy; rewrite sin_0; ring).
  assert (C : coef_yy r r 0 = 1 / r ^ 2) by (unfold coef_yy; rewrite cos_0, sin_0; field; lra). rewrite A, B, C in *. set (w := 1 / r ^ 2) in *.
  assert (W : 0 < w) by (unfold w; apply Rdiv_lt_0_compat; [lra|apply pow_lt, Hr]). assert (WK : 0 < w / K) by (apply Rdiv_lt_0_compat; assumption).
  replace (0 / K) with 0 by (field; lra). assert (T : tilted (w / K) 0 (w / K) = false).
  { unfold tilted, abs_div. destruct (Req_EM_T (w / K) 0) as [E|_]; [lra|]. replace (0 / (w / K)) with 0 by (field; lra). rewrite Rabs_R0. unfold py_min, ext_lt, tolerance. destruct (Rlt_dec 0 0); [lra|]. destruct (Rlt_dec (1 / 1000) 0); [lra|reflexivity]. }
  unfold fit_from, turned, orientation. rewrite T. destruct (Req_EM_T (w / K) 0) as [E|_]; [lra|]. set (d := (2 * w * (mx - h) + 0 * (my - k)) / K). set (e := (0 * (mx - h) + 2 * w * (my - k)) / K).
  assert (F : (1 + d ^ 2 / (4 * (w / K)) + e ^ 2 / (4 * (w / K))) / (w / K) = r ^ 2).
  { assert (Q : w * (mx - h) ^ 2 + w * (my - k) ^ 2 = 1 - K) by (unfold quad in EK; lra). transitivity ((K + (w * (mx - h) ^ 2 + w * (my - k) ^ 2)) / w); [unfold d, e; field; lra|]. rewrite Q. unfold w. field. lra. }
  assert (S : sqrt (Rabs ((1 + d ^ 2 / (4 * (w / K)) + e ^ 2 / (4 * (w / K))) / (w / K))) = r) by (rewrite F, Rabs_pos_eq by (apply pow_le; lra); apply sqrt_pow2; lra).
  assert (X0 : mx - d / 2 / (w / K) = h) by (unfold d; field; lra). assert (Y0 : my - e / 2 / (w / K) = k) by (unfold e; field; lra).
  rewrite S, X0, Y0. eexists. split; [reflexivity|]. cbn [f_points f_major f_minor]. split; [|split; [apply Rmax_left; lra|apply Rmin_left; lra]].
  apply map_ext. intro t. unfold on_circle. rewrite cos_0, sin_0. f_equal; ring.
Qed.
Lemma linspace_up n : (1 <= n)%nat -> linspace_2pi (S n) = map (up n 0) (seq 0 (S n)).
Proof.
  intro H. unfold linspace_2pi. replace (Nat.eqb (S n) 1) with false by (symmetry; apply Nat.eqb_neq; lia). apply map_ext. intro i. unfold up. replace (S n - 1)%nat with n by lia. cbn [INR]. f_equal. ring.
Qed.
Lemma anticlockwise_poly n r h k j : anticlockwise n r h k j = map (fun i => on_circle r h k (up n j i)) (seq 0 (S n)).
Proof. reflexivity. Qed.
Lemma clockwise_poly n r h k j : clockwise n r h k j = map (fun i => on_circle r h k (down n j i)) (seq 0 (S n)).
Proof. reflexivity. Qed.
Lemma circle_arc_up n r h k j : (2 <= n)%nat -> 0 < r -> arc_length (anticlockwise n r h k j) = 2 * r * (INR n * sin (PI / INR n)).
Proof. intros Hn Hr. rewrite anticlockwise_poly, (arc_poly_eq (on_circle r h k) n (up n j) (2 * r)); [ring|intros; apply circle_chord, Hr|apply step_up, Hn]. Qed.
Lemma circle_arc_down n r h k j : (2 <= n)%nat -> 0 < r -> arc_length (clockwise n r h k j) = 2 * r * (INR n * sin (PI / INR n)).
Proof. intros Hn Hr. rewrite clockwise_poly, (arc_poly_eq (on_circle r h k) n (down n j) (2 * r)); [ring|intros; apply circle_chord, Hr|apply step_down, Hn]. Qed.

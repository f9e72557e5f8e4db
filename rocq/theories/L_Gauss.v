From Coq Require Import Reals Lra Lia.
From Verif Require Import M_Base M_Gauss S_Gauss.
Open Scope R_scope.

(** *** the Gaussian *)
Definition along (theta dx dy : R) : R := cos theta * dx + sin theta * dy.
Definition across (theta dx dy : R) : R := - sin theta * dx + cos theta * dy.
Lemma gaussian_form A x0 y0 sx sy t x y : sx <> 0 -> sy <> 0 ->
  gaussian_at A x0 y0 sx sy t x y = A * exp (- ((along t (x - x0) (y - y0)) ^ 2 / (2 * sx ^ 2) + (across t (x - x0) (y - y0)) ^ 2 / (2 * sy ^ 2))).
Proof.
  intros Hx Hy. unfold gaussian_at, along, across. do 2 f_equal. f_equal. rewrite sin_2a. field. split; assumption.
Qed.
Lemma sq_pos x : 0 <= x ^ 2. Proof. apply pow2_ge_0. Qed.
Lemma sq_pos_lt x : x <> 0 -> 0 < x ^ 2. Proof. intro H. rewrite <- Rsqr_pow2. apply Rlt_0_sqr, H. Qed.
Lemma quad_zero t sx sy dx dy : sx <> 0 -> sy <> 0 -> (along t dx dy) ^ 2 / (2 * sx ^ 2) + (across t dx dy) ^ 2 / (2 * sy ^ 2) = 0 -> dx = 0 /\ dy = 0.
Proof.
  intros Hx Hy H. pose proof (sq_pos_lt sx Hx). pose proof (sq_pos_lt sy Hy).
  assert (U : 0 <= (along t dx dy) ^ 2 / (2 * sx ^ 2)) by (apply Rmult_le_pos; [apply sq_pos|left; apply Rinv_0_lt_compat; lra]).
  assert (V : 0 <= (across t dx dy) ^ 2 / (2 * sy ^ 2)) by (apply Rmult_le_pos; [apply sq_pos|left; apply Rinv_0_lt_compat; lra]).
  assert (Z : forall u s, 0 < s ^ 2 -> u ^ 2 / (2 * s ^ 2) = 0 -> u = 0).
  { intros u s Hs E. apply Rmult_integral in E as [E|E]; [|assert (/ (2 * s ^ 2) <> 0) by (apply Rinv_neq_0_compat; lra); contradiction].
    rewrite <- Rsqr_pow2 in E. apply Rsqr_0_uniq, E. }
  assert (Eu : along t dx dy = 0) by (apply (Z _ sx); lra). assert (Ev : across t dx dy = 0) by (apply (Z _ sy); lra).
  pose proof (sin2_cos2 t) as T. unfold Rsqr in T. unfold along, across in *. split.
  - transitivity (cos t * (cos t * dx + sin t * dy) - sin t * (- sin t * dx + cos t * dy)); [|rewrite Eu, Ev; ring].
    transitivity ((sin t * sin t + cos t * cos t) * dx); [rewrite T; ring|ring].
  - transitivity (sin t * (cos t * dx + sin t * dy) + cos t * (- sin t * dx + cos t * dy)); [|rewrite Eu, Ev; ring].
    transitivity ((sin t * sin t + cos t * cos t) * dy); [rewrite T; ring|ring].
Qed.
Lemma quad_nonneg t sx sy dx dy : sx <> 0 -> sy <> 0 -> 0 <= (along t dx dy) ^ 2 / (2 * sx ^ 2) + (across t dx dy) ^ 2 / (2 * sy ^ 2).
Proof.
  intros Hx Hy. pose proof (sq_pos_lt sx Hx). pose proof (sq_pos_lt sy Hy).
  apply Rplus_le_le_0_compat; (apply Rmult_le_pos; [apply sq_pos|left; apply Rinv_0_lt_compat; lra]).
Qed.
Lemma exp_le_1 x : 0 <= x -> exp (- x) <= 1.
Proof. intro H. rewrite <- exp_0. destruct H as [H| <-]; [left; apply exp_increasing; lra|rewrite Ropp_0; right; reflexivity]. Qed.
Lemma exp_eq_1 x : exp x = 1 -> x = 0.
Proof. intro H. apply exp_inv. rewrite exp_0. exact H. Qed.
Lemma gaussian_centre A x0 y0 sx sy t : gaussian_at A x0 y0 sx sy t x0 y0 = A.
Proof. unfold gaussian_at. rewrite !Rminus_eq_0. replace (- _) with 0 by ring. rewrite exp_0. ring. Qed.
Lemma gaussian_sign A x0 y0 sx sy t x y : A <> 0 -> 0 < A * gaussian_at A x0 y0 sx sy t x y.
Proof.
  intro HA. unfold gaussian_at. match goal with |- 0 < A * (A * exp ?e) => replace (A * (A * exp e)) with (A ^ 2 * exp e) by ring end.
  apply Rmult_lt_0_compat; [apply sq_pos_lt, HA|apply exp_pos].
Qed.
Lemma gaussian_bound A x0 y0 sx sy t x y : sx <> 0 -> sy <> 0 -> Rabs (gaussian_at A x0 y0 sx sy t x y) <= Rabs A.
Proof.
  intros Hx Hy. rewrite gaussian_form by assumption. rewrite Rabs_mult. rewrite (Rabs_right (exp _)) by (left; apply exp_pos).
  pose proof (exp_le_1 _ (quad_nonneg t sx sy (x - x0) (y - y0) Hx Hy)) as H.
  rewrite <- (Rmult_1_r (Rabs A)) at 2. apply Rmult_le_compat_l; [apply Rabs_pos|exact H].
Qed.
Lemma gaussian_max_only A x0 y0 sx sy t x y : sx <> 0 -> sy <> 0 -> A <> 0 -> Rabs (gaussian_at A x0 y0 sx sy t x y) = Rabs A -> x = x0 /\ y = y0.
Proof.
  intros Hx Hy HA H. rewrite gaussian_form in H by assumption. rewrite Rabs_mult in H. rewrite (Rabs_right (exp _)) in H by (left; apply exp_pos).
  rewrite <- (Rmult_1_r (Rabs A)) in H at 2. apply Rmult_eq_reg_l in H; [|apply Rabs_no_R0, HA]. apply exp_eq_1 in H.
  destruct (quad_zero t sx sy (x - x0) (y - y0) Hx Hy) as [? ?]; lra.
Qed.
Lemma gaussian_point_symmetric A x0 y0 sx sy t dx dy : gaussian_at A x0 y0 sx sy t (x0 + dx) (y0 + dy) = gaussian_at A x0 y0 sx sy t (x0 - dx) (y0 - dy).
Proof. unfold gaussian_at. do 3 f_equal. ring. Qed.
Lemma sin_period_pi t : sin (t + PI) = - sin t. Proof. apply neg_sin. Qed.
Lemma gaussian_period A x0 y0 sx sy t x y : gaussian_at A x0 y0 sx sy (t + PI) x y = gaussian_at A x0 y0 sx sy t x y.
Proof.
  unfold gaussian_at. rewrite neg_sin, neg_cos. replace (2 * (t + PI)) with (2 * t + 2 * PI) by ring. rewrite sin_plus, cos_2PI, sin_2PI. do 3 f_equal. unfold Rdiv. ring.
Qed.
Lemma along_dir t r : along t (r * cos t) (r * sin t) = r /\ across t (r * cos t) (r * sin t) = 0.
Proof. unfold along, across. pose proof (sin2_cos2 t) as T. unfold Rsqr in T. split; [|ring]. transitivity (r * (sin t * sin t + cos t * cos t)); [ring|rewrite T; ring]. Qed.
Lemma across_dir t r : along t (- (r * sin t)) (r * cos t) = 0 /\ across t (- (r * sin t)) (r * cos t) = r.
Proof. unfold along, across. pose proof (sin2_cos2 t) as T. unfold Rsqr in T. split; [ring|]. transitivity (r * (sin t * sin t + cos t * cos t)); [ring|rewrite T; ring]. Qed.
Lemma gaussian_along A x0 y0 sx sy t r : sx <> 0 -> sy <> 0 -> gaussian_at A x0 y0 sx sy t (x0 + r * cos t) (y0 + r * sin t) = A * exp (- (r ^ 2 / (2 * sx ^ 2))).
Proof.
  intros Hx Hy. rewrite gaussian_form by assumption. replace (x0 + r * cos t - x0) with (r * cos t) by ring. replace (y0 + r * sin t - y0) with (r * sin t) by ring.
  destruct (along_dir t r) as [-> ->]. do 3 f_equal. field. split; assumption.
Qed.
Lemma gaussian_across A x0 y0 sx sy t r : sx <> 0 -> sy <> 0 -> gaussian_at A x0 y0 sx sy t (x0 - r * sin t) (y0 + r * cos t) = A * exp (- (r ^ 2 / (2 * sy ^ 2))).
Proof.
  intros Hx Hy. rewrite gaussian_form by assumption. replace (x0 - r * sin t - x0) with (- (r * sin t)) by ring. replace (y0 + r * cos t - y0) with (r * cos t) by ring.
  destruct (across_dir t r) as [-> ->]. do 3 f_equal. field. split; assumption.
Qed.
Lemma efold s : s <> 0 -> - (s ^ 2 / (2 * s ^ 2)) = - (1 / 2). Proof. intro H. field. exact H. Qed.
Lemma generator_gaussian A x0 y0 sx sy t x y : sx <> 0 -> sy <> 0 -> twoD_Gaussian_at A x0 y0 sx sy t x y = gaussian_at A x0 y0 sx sy (- t) x y.
Proof.
  intros Hx Hy. unfold twoD_Gaussian_at, gaussian_at. destruct (Req_EM_T sy 0); [contradiction|]. rewrite cos_neg, sin_neg. replace (2 * - t) with (- (2 * t)) by ring. rewrite sin_neg.
  do 3 f_equal. field. split; assumption.
Qed.

(** *** statistics *)
Lemma Rsum_nonneg l : (forall x, In x l -> 0 <= x) -> 0 <= Rsum l.
Proof. induction l as [|a l IH]; intro H; [cbn; lra|]. change (Rsum (a :: l)) with (a + Rsum l). pose proof (H a (or_introl eq_refl)). assert (0 <= Rsum l) by (apply IH; intros; apply H; right; assumption). lra. Qed.
Lemma Rsum_zero l : (forall x, In x l -> 0 <= x) -> Rsum l = 0 -> forall x, In x l -> x = 0.
Proof.
  induction l as [|a l IH]; intros H E x Hx; [destruct Hx|]. change (Rsum (a :: l)) with (a + Rsum l) in E. pose proof (H a (or_introl eq_refl)).
  assert (0 <= Rsum l) by (apply Rsum_nonneg; intros; apply H; right; assumption). destruct Hx as [<-|Hx]; [lra|].
  apply IH; [intros; apply H; right; assumption|lra|exact Hx].
Qed.
Lemma Rsum_const l c : (forall x, In x l -> x = c) -> Rsum l = INR (length l) * c.
Proof.
  induction l as [|a l IH]; intro H; [cbn; ring|]. cbn [Rsum fold_right length]. fold (Rsum l). rewrite S_INR, IH by (intros; apply H; right; assumption).
  rewrite (H a (or_introl eq_refl)). ring.
Qed.
Lemma INR_len_pos {A} (l : list A) : l <> [] -> 0 < INR (length l).
Proof. intro H. destruct l; [congruence|]. cbn [length]. apply lt_0_INR. lia. Qed.
Lemma Rmean_nonneg l m : (forall x, In x l -> 0 <= x) -> Rmean l = Some m -> 0 <= m.
Proof.
  intros H E. unfold Rmean in E. destruct l as [|a l]; [discriminate|]. assert (E' : m = Rsum (a :: l) / INR (length (a :: l))) by congruence. rewrite E'. apply Rmult_le_pos; [apply Rsum_nonneg, H|].
  left. apply Rinv_0_lt_compat, INR_len_pos. discriminate.
Qed.
Lemma Rmean_zero l : (forall x, In x l -> 0 <= x) -> Rmean l = Some 0 -> forall x, In x l -> x = 0.
Proof.
  intros H E. unfold Rmean in E. destruct l as [|a l]; [discriminate|]. assert (E' : Rsum (a :: l) / INR (length (a :: l)) = 0) by congruence. clear E. rename E' into E. apply Rsum_zero; [exact H|].
  assert (N : 0 < INR (length (a :: l))) by (apply INR_len_pos; discriminate). apply Rmult_integral in E as [E|E]; [exact E|].
  exfalso. assert (/ INR (length (a :: l)) <> 0) by (apply Rinv_neq_0_compat; lra). contradiction.
Qed.
Lemma Rmean_const l c : l <> [] -> (forall x, In x l -> x = c) -> Rmean l = Some c.
Proof.
  intros Hl H. unfold Rmean. destruct l as [|a l]; [congruence|]. f_equal. rewrite (Rsum_const _ c) by exact H. field. apply Rgt_not_eq, INR_len_pos, Hl.
Qed.
Lemma valid_in l x : In x (valid l) <-> In (Some x) l.
Proof.
  induction l as [|[y|] l IH]; cbn [valid In]; [tauto| |].
  - rewrite IH. split; (intros [H|H]; [left; congruence|right; exact H]).
  - rewrite IH. split; [auto|]. intros [H|H]; [discriminate|exact H].
Qed.
Lemma abs_diff_nth : forall data gauss i, length gauss = length data ->
  nth_error (abs_diff data gauss) i = match nth_error data i, nth_error gauss i with Some d, Some g => Some (option_map (fun v => Rabs (v - g)) d) | _, _ => None end.
Proof.
  induction data as [|d data IH]; intros [|g gauss] i H; try discriminate; [destruct i; reflexivity|]. destruct i as [|i]; [reflexivity|]. cbn [abs_diff nth_error]. apply IH. cbn in H. lia.
Qed.
Lemma abs_diff_in data gauss v : length gauss = length data -> In (Some v) (abs_diff data gauss) <->
  exists i d g, nth_error data i = Some (Some d) /\ nth_error gauss i = Some g /\ v = Rabs (d - g).
Proof.
  intro L. split.
  - intro H. apply In_nth_error in H as [i H]. rewrite abs_diff_nth in H by exact L. destruct (nth_error data i) as [[d|]|] eqn:Ed; try discriminate; destruct (nth_error gauss i) as [g|] eqn:Eg; try discriminate.
    injection H as <-. exists i, d, g. auto.
  - intros [i [d [g [Hd [Hg ->]]]]]. apply nth_error_In with i. rewrite abs_diff_nth, Hd, Hg by exact L. reflexivity.
Qed.
Lemma abs_diff_nonneg data gauss x : length gauss = length data -> In x (valid (abs_diff data gauss)) -> 0 <= x.
Proof. intros L H. apply valid_in, abs_diff_in in H as [i [d [g [_ [_ ->]]]]]; [apply Rabs_pos|exact L]. Qed.
Lemma nanstd_zero l : nanstd l = Some 0 <-> valid l <> [] /\ exists c, forall x, In x (valid l) -> x = c.
Proof.
  unfold nanstd, nanmean. split.
  - intro H. destruct (Rmean (valid l)) as [m|] eqn:Em; [|discriminate]. destruct (Rmean (map _ (valid l))) as [s|] eqn:Es; [|discriminate]. injection H as H.
    split; [intro E; rewrite E in Em; discriminate|]. exists m. intros x Hx.
    assert (P : forall y, In y (map (fun v => (v - m) ^ 2) (valid l)) -> 0 <= y) by (intros y Hy; apply in_map_iff in Hy as [z [<- _]]; apply sq_pos).
    assert (s = 0) as -> by (apply sqrt_eq_0; [eapply Rmean_nonneg; [exact P|exact Es]|exact H]).
    pose proof (Rmean_zero _ P Es ((x - m) ^ 2) (in_map _ _ _ Hx)) as Z. rewrite <- Rsqr_pow2 in Z. apply Rsqr_0_uniq in Z. lra.
  - intros [N [c Hc]]. rewrite (Rmean_const _ c N Hc). rewrite (Rmean_const _ 0).
    + cbn [option_map]. rewrite sqrt_0. reflexivity.
    + destruct (valid l); [congruence|discriminate].
    + intros y Hy. apply in_map_iff in Hy as [z [<- Hz]]. rewrite (Hc z Hz). ring.
Qed.
Lemma nanstd_nonneg l s : nanstd l = Some s -> 0 <= s.
Proof.
  unfold nanstd. destruct (nanmean l); [|discriminate]. destruct (Rmean _); [|discriminate]. intro H. injection H as <-. apply sqrt_pos.
Qed.
Lemma residual_nonneg data gauss r : gaussian_residual data gauss = Ok (Some r) -> 0 <= r.
Proof.
  unfold gaussian_residual. destruct (Nat.eqb_spec (length gauss) (length data)) as [L|]; [|discriminate].
  destruct (nanstd _) as [s|] eqn:Es; [|discriminate]. destruct (nanmean _) as [m|] eqn:Em; [|discriminate]. intro H. injection H as <-.
  apply Rmult_le_pos; [eapply nanstd_nonneg, Es|]. unfold nanmean in Em. eapply Rmean_nonneg; [|exact Em]. intros x Hx. eapply abs_diff_nonneg; eassumption.
Qed.
Lemma residual_zero data gauss : length gauss = length data ->
  (gaussian_residual data gauss = Ok (Some 0) <-> (exists v, misfit data gauss v) /\ exists c, forall v, misfit data gauss v -> v = c).
Proof.
  intro L. unfold gaussian_residual. rewrite (proj2 (Nat.eqb_eq _ _) L).
  assert (I : forall v, In v (valid (abs_diff data gauss)) <-> misfit data gauss v) by (intro v; rewrite valid_in, abs_diff_in by exact L; reflexivity).
  split.
  - intro H. destruct (nanstd _) as [s|] eqn:Es; [|discriminate]. destruct (nanmean _) as [m|] eqn:Em; [|discriminate]. injection H as H.
    assert (Hn : exists v, misfit data gauss v).
    { unfold nanmean in Em. destruct (valid (abs_diff data gauss)) as [|v l] eqn:E; [discriminate|]. exists v. apply I. left. reflexivity. }
    split; [exact Hn|]. apply Rmult_integral in H as [->| ->].
    + apply nanstd_zero in Es as [_ [c Hc]]. exists c. intros v Hv. apply Hc, I, Hv.
    + exists 0. intros v Hv. apply (Rmean_zero (valid (abs_diff data gauss))); [intros x Hx; eapply abs_diff_nonneg; eassumption|exact Em|apply I, Hv].
  - intros [[v Hv] [c Hc]]. assert (E : nanstd (abs_diff data gauss) = Some 0).
    { apply nanstd_zero. split; [intro E; apply I in Hv; rewrite E in Hv; exact Hv|]. exists c. intros x Hx. apply Hc, I, Hx. }
    rewrite E. unfold nanmean. rewrite (Rmean_const _ c); [f_equal; f_equal; ring| |].
    + intro F. apply I in Hv. rewrite F in Hv. exact Hv.
    + intros x Hx. apply Hc, I, Hx.
Qed.

(** *** bounds *)
Lemma coord_inside v d : d <> 0 -> inside (Some v) (sort2 (coord_bounds (Some v) (Some d))).
Proof.
  intro H. cbn. destruct (Rle_dec (v - d) (v + d)); exists v; do 2 eexists; (split; [reflexivity|]); (split; [reflexivity|]); lra.
Qed.
Lemma coord_value v d : sort2 (coord_bounds (Some v) (Some d)) = (Some (v - Rabs d), Some (v + Rabs d)).
Proof.
  cbn. destruct (Rle_dec (v - d) (v + d)) as [H|H]; [rewrite (Rabs_right d) by lra|rewrite (Rabs_left d) by lra]; f_equal; f_equal; lra.
Qed.
Lemma ellipse_inside v : inside (Some v) (sort2 (ellipse_bounds (Some v))).
Proof.
  cbn. destruct (Req_EM_T v 0) as [->|H]; cbn.
  - destruct (Rle_dec (- (1 / 10000)) (1 / 10000)); [|lra]. exists 0; do 2 eexists; (split; [reflexivity|]); (split; [reflexivity|]); lra.
  - destruct (Rle_dec (v - 7 / 10 * v) (v + 7 / 10 * v)); exists v; do 2 eexists; (split; [reflexivity|]); (split; [reflexivity|]); lra.
Qed.
Lemma width_positive v : 0 < v -> sort2 (ellipse_bounds (Some v)) = (Some (3 / 10 * v), Some (17 / 10 * v)).
Proof.
  intro H. cbn. destruct (Req_EM_T v 0); [lra|]. cbn. destruct (Rle_dec (v - 7 / 10 * v) (v + 7 / 10 * v)); [|lra]. f_equal; f_equal; lra.
Qed.

(** *** Rossby radius *)
Lemma RD_form x : approx_RD_lat x = 200 * exp (- (x ^ 2 * (225 / 20000))) + 60 * exp (- (x ^ 2 * (225 / 400000))).
Proof. unfold approx_RD_lat. f_equal; f_equal; f_equal; field. Qed.
Lemma exp_sq_decreasing k x y : 0 < k -> Rabs x < Rabs y -> exp (- (y ^ 2 * k)) < exp (- (x ^ 2 * k)).
Proof.
  intros Hk H. apply exp_increasing. apply Ropp_lt_contravar. apply Rmult_lt_compat_r; [exact Hk|]. rewrite <- !Rsqr_pow2. apply Rsqr_lt_abs_1, H.
Qed.

(** *** eccentricity *)
Lemma ecc_value a b : 0 < Rabs b <= Rabs a -> eccentricity a b = Some (sqrt (1 - (Rabs b / Rabs a) ^ 2)).
Proof.
  intros [Hb Hab]. unfold eccentricity. rewrite !Rabs_Rabsolu. assert (0 < Rabs a ^ 2) by (apply sq_pos_lt; lra). destruct (Req_EM_T _ _); [lra|].
  replace (Rabs b ^ 2 / Rabs a ^ 2) with ((Rabs b / Rabs a) ^ 2) by (field; lra).
  assert (Rabs b / Rabs a <= 1) by (apply Rmult_le_reg_r with (Rabs a); [lra|]; unfold Rdiv; rewrite Rmult_assoc, Rinv_l by lra; lra).
  assert (0 <= Rabs b / Rabs a) by (apply Rmult_le_pos; [lra|left; apply Rinv_0_lt_compat; lra]).
  assert ((Rabs b / Rabs a) ^ 2 <= 1 ^ 2) by (apply pow_incr; lra).
  destruct (Rlt_dec _ _); [rewrite pow1 in *; lra|]. reflexivity.
Qed.
Lemma ratio_bounds a b : 0 < Rabs b <= Rabs a -> 0 < Rabs b / Rabs a <= 1.
Proof.
  intros [Hb Hab]. split; [apply Rmult_lt_0_compat; [lra|apply Rinv_0_lt_compat; lra]|]. apply Rmult_le_reg_r with (Rabs a); [lra|]. unfold Rdiv. rewrite Rmult_assoc, Rinv_l by lra. lra.
Qed.
Lemma ecc_range a b : 0 < Rabs b <= Rabs a -> exists e, eccentricity a b = Some e /\ 0 <= e < 1 /\ (e = 0 <-> Rabs a = Rabs b).
Proof.
  intro H. exists (sqrt (1 - (Rabs b / Rabs a) ^ 2)). split; [apply ecc_value, H|]. pose proof (ratio_bounds a b H) as [R0 R1]. set (r := Rabs b / Rabs a) in *.
  assert (r ^ 2 <= 1) by (rewrite <- (pow1 2); apply pow_incr; lra). assert (0 < r ^ 2) by (apply sq_pos_lt; lra). split; [split; [apply sqrt_pos|]|split].
  - apply Rlt_le_trans with (sqrt 1); [apply sqrt_lt_1; lra|rewrite sqrt_1; lra].
  - intro E. apply sqrt_eq_0 in E; [|lra]. assert (r = 1). { assert (r ^ 2 = 1) by lra. destruct (Rle_lt_or_eq_dec r 1 R1) as [L|L]; [|exact L]. exfalso. assert (r ^ 2 < 1) by (cbn; nra). lra. }
    unfold r in *. assert (Rabs b = (Rabs b / Rabs a) * Rabs a) by (field; lra). rewrite H2 in H3. lra.
  - intro E. assert (r = 1) as -> by (unfold r; rewrite <- E; field; lra). replace (1 - 1 ^ 2) with 0 by ring. apply sqrt_0.
Qed.
Lemma ecc_monotone a b a' b' e e' : 0 < Rabs b <= Rabs a -> 0 < Rabs b' <= Rabs a' -> eccentricity a b = Some e -> eccentricity a' b' = Some e' ->
  Rabs b / Rabs a < Rabs b' / Rabs a' -> e' < e.
Proof.
  intros H H' E E' L. rewrite (ecc_value a b H) in E. rewrite (ecc_value a' b' H') in E'. injection E as <-. injection E' as <-.
  pose proof (ratio_bounds a b H) as [R0 R1]. pose proof (ratio_bounds a' b' H') as [R0' R1']. set (r := Rabs b / Rabs a) in *. set (r' := Rabs b' / Rabs a') in *.
  assert (r ^ 2 < r' ^ 2) by (cbn; nra). assert (r' ^ 2 <= 1) by (rewrite <- (pow1 2); apply pow_incr; lra). apply sqrt_lt_1; lra.
Qed.
Lemma ecc_scale k a b : k <> 0 -> 0 < Rabs b <= Rabs a -> eccentricity (k * a) (k * b) = eccentricity a b.
Proof.
  intros Hk H. assert (0 < Rabs k) by (apply Rabs_pos_lt, Hk). rewrite !ecc_value; [|exact H|].
  - rewrite !Rabs_mult. replace (Rabs k * Rabs b / (Rabs k * Rabs a)) with (Rabs b / Rabs a) by (field; lra). reflexivity.
  - rewrite !Rabs_mult. split; [apply Rmult_lt_0_compat; lra|apply Rmult_le_compat_l; lra].
Qed.
Lemma ecc_sign a b : eccentricity (- a) b = eccentricity a b /\ eccentricity a (- b) = eccentricity a b.
Proof. unfold eccentricity. rewrite !Rabs_Ropp. split; reflexivity. Qed.
Lemma ecc_rounded rnd a b : rounding rnd -> Rabs b <= Rabs a -> rnd (Rabs a ^ 2) <> 0 -> exists e, eccentricity_rounded rnd a b = Some e /\ 0 <= e <= 1.
Proof.
  intros [M [R0 R1]] H N. unfold eccentricity_rounded. rewrite !Rabs_Rabsolu. destruct (Req_EM_T _ _); [contradiction|].
  assert (A : 0 <= rnd (Rabs a ^ 2)) by (rewrite <- R0; apply M, sq_pos). assert (A' : 0 < rnd (Rabs a ^ 2)) by lra.
  assert (B : rnd (Rabs b ^ 2) <= rnd (Rabs a ^ 2)) by (apply M, pow_incr; split; [apply Rabs_pos|exact H]).
  assert (B0 : 0 <= rnd (Rabs b ^ 2)) by (rewrite <- R0; apply M, sq_pos).
  set (q := rnd (Rabs b ^ 2) / rnd (Rabs a ^ 2)). assert (Q0 : 0 <= q) by (apply Rmult_le_pos; [exact B0|left; apply Rinv_0_lt_compat, A']).
  assert (Q1 : q <= 1). { unfold q. apply Rmult_le_reg_r with (rnd (Rabs a ^ 2)); [exact A'|]. unfold Rdiv. rewrite Rmult_assoc, Rinv_l by lra. lra. }
  assert (0 <= rnd q) by (rewrite <- R0; apply M, Q0). assert (rnd q <= 1) by (rewrite <- R1; apply M, Q1).
  assert (D0 : 0 <= rnd (1 - rnd q)) by (rewrite <- R0 at 1; apply M; lra). assert (D1 : rnd (1 - rnd q) <= 1) by (rewrite <- R1 at 2; apply M; lra).
  destruct (Rlt_dec _ _); [lra|]. eexists. split; [reflexivity|]. split.
  - rewrite <- R0 at 1. apply M, sqrt_pos.
  - rewrite <- R1 at 2. apply M. rewrite <- sqrt_1 at 2. apply sqrt_le_1; lra.
Qed.

(** *** kernels *)
Lemma ln2_pos : 0 < ln 2. Proof. rewrite <- ln_1. apply ln_increasing; lra. Qed.
Lemma exp_mln2 : exp (- ln 2) = / 2. Proof. rewrite exp_Ropp, exp_ln by lra. reflexivity. Qed.
Lemma kernel_form w x0 y0 x y : kernel_at w x0 y0 x y = exp (- (4 * ln 2 * r2 x0 y0 x y / w ^ 2)).
Proof. unfold kernel_at, r2. f_equal. unfold Rdiv. ring. Qed.
Lemma kernel_lt w x0 y0 x y x' y' : w <> 0 -> (kernel_at w x0 y0 x y < kernel_at w x0 y0 x' y' <-> r2 x0 y0 x' y' < r2 x0 y0 x y).
Proof.
  intro Hw. rewrite !kernel_form. pose proof (sq_pos_lt w Hw) as W. pose proof ln2_pos. set (k := 4 * ln 2 / w ^ 2).
  assert (K : 0 < k) by (unfold k; apply Rmult_lt_0_compat; [lra|apply Rinv_0_lt_compat, W]).
  replace (4 * ln 2 * r2 x0 y0 x y / w ^ 2) with (k * r2 x0 y0 x y) by (unfold k, Rdiv; ring).
  replace (4 * ln 2 * r2 x0 y0 x' y' / w ^ 2) with (k * r2 x0 y0 x' y') by (unfold k, Rdiv; ring). split; intro H0.
  - apply exp_lt_inv in H0. apply Rmult_lt_reg_l with k; [exact K|lra].
  - apply exp_increasing, Ropp_lt_contravar, Rmult_lt_compat_l; assumption.
Qed.
Lemma kernel_half w x0 y0 x y : w <> 0 -> (kernel_at w x0 y0 x y = / 2 <-> r2 x0 y0 x y = (w / 2) ^ 2).
Proof.
  intro Hw. rewrite kernel_form, <- exp_mln2. pose proof (sq_pos_lt w Hw). pose proof ln2_pos. split; intro E.
  - apply exp_inv in E. apply Ropp_eq_compat in E. rewrite !Ropp_involutive in E.
    transitivity (w ^ 2 / (4 * ln 2) * (4 * ln 2 * r2 x0 y0 x y / w ^ 2)); [field; split; lra|]. rewrite E. field. lra.
  - rewrite E. do 2 f_equal. field. assumption.
Qed.
Lemma kernel_one w x0 y0 x y : w <> 0 -> (kernel_at w x0 y0 x y = 1 <-> x = x0 /\ y = y0).
Proof.
  intro Hw. rewrite kernel_form. pose proof (sq_pos_lt w Hw). pose proof ln2_pos. split.
  - intro E. apply exp_eq_1 in E. assert (Z : r2 x0 y0 x y = 0).
    { transitivity (w ^ 2 / (4 * ln 2) * - (- (4 * ln 2 * r2 x0 y0 x y / w ^ 2))); [field; split; lra|]. rewrite E. ring. }
    unfold r2 in Z. pose proof (sq_pos (x - x0)). pose proof (sq_pos (y - y0)).
    assert (A : (x - x0) ^ 2 = 0) by lra. assert (B : (y - y0) ^ 2 = 0) by lra. rewrite <- Rsqr_pow2 in A, B. apply Rsqr_0_uniq in A. apply Rsqr_0_uniq in B. lra.
  - intros [-> ->]. unfold r2. replace (- _) with 0 by (unfold Rdiv; ring). apply exp_0.
Qed.
Lemma nth_error_seq0 n i : nth_error (seq 0 n) i = if Nat.ltb i n then Some i else None.
Proof.
  destruct (Nat.ltb_spec i n) as [H|H]; [|apply nth_error_None; rewrite seq_length; exact H].
  rewrite (nth_error_nth' _ 0%nat) by (rewrite seq_length; exact H). rewrite seq_nth by exact H. reflexivity.
Qed.
Lemma makeGaussian_entry size w c i j : entry (makeGaussian size w c) i j =
  if (Nat.ltb i size && Nat.ltb j size)%bool then
    Some (kernel_at w (match c with Some c => fst c | None => INR (Nat.div size 2) end) (match c with Some c => snd c | None => INR (Nat.div size 2) end) (INR j) (INR i))
  else None.
Proof.
  unfold entry, makeGaussian. rewrite nth_error_map, nth_error_seq0. destruct (Nat.ltb i size); [|reflexivity]. cbn [option_map andb].
  rewrite nth_error_map, nth_error_seq0. destruct (Nat.ltb j size); [|reflexivity]. destruct c as [[? ?]|]; reflexivity.
Qed.
Lemma move_from_ok size w center : forall n tt z, move_from size w center tt n = Ok z ->
  length z = n /\ forall k, (k < n)%nat -> exists c, nth_error center (tt + k) = Some c /\ nth_error z k = Some (makeGaussian size w (Some c)).
Proof.
  induction n as [|n IH]; intros tt z H; cbn [move_from] in H; [injection H as <-; split; [reflexivity|lia]|].
  destruct (nth_error center tt) as [c|] eqn:E; [|discriminate]. destruct (move_from size w center (S tt) n) as [rest|] eqn:Er; [|discriminate]. injection H as <-.
  destruct (IH _ _ Er) as [L H]. split; [cbn; congruence|]. intros [|k] Hk; [exists c; rewrite Nat.add_0_r; auto|]. destruct (H k ltac:(lia)) as [c' [A B]].
  exists c'. split; [rewrite <- A; f_equal; lia|exact B].
Qed.
Lemma move_from_iff size w center : forall n tt, (exists z, move_from size w center tt n = Ok z) <-> (n = 0%nat \/ tt + n <= length center)%nat.
Proof.
  induction n as [|n IH]; intros tt; cbn [move_from]; [split; [auto|intros _; eexists; reflexivity]|].
  destruct (nth_error center tt) as [c|] eqn:E.
  - assert (tt < length center)%nat by (apply nth_error_Some; congruence). specialize (IH (S tt)). destruct (move_from size w center (S tt) n) as [rest|e]; cbn [bind].
    + split; [intros _; destruct (proj1 IH (ex_intro _ _ eq_refl)); lia|intros _; eexists; reflexivity].
    + split; [intros [z Hz]; discriminate|intros Hn]. exfalso. destruct (proj2 IH) as [z Hz]; [lia|discriminate].
  - apply nth_error_None in E. split; [intros [z Hz]; discriminate|lia].
Qed.

(** *** mean spacings *)
Lemma last_indep {A} (l : list A) a x y : last (a :: l) x = last (a :: l) y.
Proof. revert a. induction l as [|b l IH]; intro a; [reflexivity|]. exact (IH b). Qed.
Lemma Rsum_app u v : Rsum (app u v) = Rsum u + Rsum v.
Proof. induction u as [|x u IH]; [cbn [app]; change (Rsum []) with 0; ring|]. cbn [app]. change (Rsum (x :: app u v)) with (x + Rsum (app u v)). change (Rsum (x :: u)) with (x + Rsum u). lra. Qed.
Lemma zip_sub_sum : forall u v, length u = length v -> Rsum (zip_sub u v) = Rsum u - Rsum v /\ length (zip_sub u v) = length u.
Proof.
  induction u as [|x u IH]; intros [|y v] H; try discriminate; [cbn; split; [lra|reflexivity]|]. cbn [zip_sub length] in *. destruct (IH v ltac:(lia)) as [E L]. split; [|lia].
  change (Rsum (x - y :: zip_sub u v)) with (x - y + Rsum (zip_sub u v)). change (Rsum (x :: u)) with (x + Rsum u). change (Rsum (y :: v)) with (y + Rsum v). lra.
Qed.
Lemma diff_axis0_sum m : forall Y r, (forall s, In s (r :: Y) -> length s = m) ->
  Rsum (diff_axis0 (r :: Y)) = Rsum (last (r :: Y) r) - Rsum r /\ length (diff_axis0 (r :: Y)) = (length Y * m)%nat.
Proof.
  induction Y as [|r1 Y IH]; intros r H; [split; [change (diff_axis0 [r]) with (@nil R); change (Rsum []) with 0; cbn [last]; ring|reflexivity]|].
  change (diff_axis0 (r :: r1 :: Y)) with (app (zip_sub r1 r) (diff_axis0 (r1 :: Y))). rewrite Rsum_app, app_length.
  destruct (zip_sub_sum r1 r) as [E L]; [rewrite !H by (cbn; auto); reflexivity|]. destruct (IH r1) as [E1 L1]; [intros s Hs; apply H; right; exact Hs|].
  rewrite E, E1, L, L1, (H r1) by (cbn; auto). split; [|cbn; lia].
  change (last (r :: r1 :: Y) r) with (last (r1 :: Y) r). rewrite (last_indep Y r1 r r1). ring.
Qed.
Lemma diff1_sum : forall l x, Rsum (diff1 (x :: l)) = last (x :: l) x - x /\ length (diff1 (x :: l)) = length l.
Proof.
  induction l as [|y l IH]; intro x; [cbn; split; [lra|reflexivity]|]. change (diff1 (x :: y :: l)) with ((y - x) :: diff1 (y :: l)).
  change (Rsum (y - x :: diff1 (y :: l))) with (y - x + Rsum (diff1 (y :: l))). destruct (IH y) as [E L]. rewrite E. cbn [length]. rewrite L. split; [|reflexivity].
  change (last (x :: y :: l) x) with (last (y :: l) x). rewrite (last_indep l y x y). ring.
Qed.
Lemma diff_axis1_sum m : forall X, (forall r, In r X -> length r = S m) ->
  Rsum (diff_axis1 X) = Rsum (map (fun r => last r 0 - hd 0 r) X) /\ length (diff_axis1 X) = (length X * m)%nat.
Proof.
  induction X as [|r X IH]; intro H; [cbn; split; [lra|reflexivity]|]. unfold diff_axis1 in *. cbn [map concat]. rewrite Rsum_app, app_length.
  destruct IH as [E L]; [intros s Hs; apply H; right; exact Hs|]. rewrite E, L. pose proof (H r (or_introl eq_refl)) as Lr. destruct r as [|x r]; [discriminate|].
  destruct (diff1_sum r x) as [E1 L1]. rewrite E1, L1. cbn [length] in Lr. split; [|cbn; lia].
  change (Rsum (last (x :: r) 0 - hd 0 (x :: r) :: map (fun r => last r 0 - hd 0 r) X)) with (last (x :: r) 0 - x + Rsum (map (fun r => last r 0 - hd 0 r) X)).
  rewrite (last_indep r x x 0). ring.
Qed.
Lemma Rmean_of l : l <> [] -> Rmean l = Some (Rsum l / INR (length l)).
Proof. destruct l; [congruence|reflexivity]. Qed.
Lemma spacing_y m Y r : (0 < length Y)%nat -> (0 < m)%nat -> (forall s, In s (r :: Y) -> length s = m) ->
  Rmean (diff_axis0 (r :: Y)) = Some ((Rsum (last (r :: Y) r) - Rsum r) / INR (length Y * m)).
Proof.
  intros HY Hm H. destruct (diff_axis0_sum m Y r H) as [E L]. rewrite Rmean_of; [rewrite E, L; reflexivity|]. intro Z. rewrite Z in L. cbn [length] in L. nia.
Qed.
Lemma spacing_x m X : X <> [] -> (0 < m)%nat -> (forall s, In s X -> length s = S m) ->
  Rmean (diff_axis1 X) = Some (Rsum (map (fun r => last r 0 - hd 0 r) X) / INR (length X * m)).
Proof.
  intros HX Hm H. destruct (diff_axis1_sum m X H) as [E L]. rewrite Rmean_of; [rewrite E, L; reflexivity|]. intro Z. rewrite Z in L. destruct X; [congruence|]. cbn [length] in L. nia.
Qed.

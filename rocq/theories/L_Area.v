From Coq Require Import Reals Qreals Lra Lia Psatz.
From Verif Require Import M_Base M_Area M_AreaR S_Area.
Open Scope R_scope.

(** *** mod and wrap *)
Definition TP : R := 2 * PI.
Lemma TP_pos : 0 < TP. Proof. unfold TP. pose proof PI_RGT_0. lra. Qed.
Lemma Int_part_spec r z : r - 1 < IZR z <= r -> z = Int_part r.
Proof. intros [A B]. unfold Int_part. rewrite <- (tech_up r (z + 1)); [lia|rewrite plus_IZR; lra|rewrite plus_IZR; lra]. Qed.
Lemma Int_part_add x k : Int_part (x + IZR k) = (Int_part x + k)%Z.
Proof. symmetry. apply Int_part_spec. destruct (base_Int_part x) as [A B]. rewrite plus_IZR. lra. Qed.
Lemma Rmod_shift x m k : 0 < m -> Rmod (x + m * IZR k) m = Rmod x m.
Proof. intro Hm. unfold Rmod. replace ((x + m * IZR k) / m) with (x / m + IZR k) by (field; lra). rewrite Int_part_add, plus_IZR. ring. Qed.
Lemma Rmod_range x m : 0 < m -> 0 <= Rmod x m < m.
Proof.
  intro Hm. unfold Rmod. destruct (base_Int_part (x / m)) as [A B]. set (k := IZR (Int_part (x / m))) in *. assert (E : x = m * (x / m)) by (field; lra). set (y := x / m) in *. rewrite E. 
  replace (m * y - m * k) with (m * (y - k)) by ring. split; [apply Rmult_le_pos; lra|]. rewrite <- (Rmult_1_r m) at 2. apply Rmult_lt_compat_l; lra.
Qed.
Lemma Rmod_eqm x m : exists k : Z, x = Rmod x m + m * IZR k.
Proof. exists (Int_part (x / m)). unfold Rmod. ring. Qed.
Lemma Rmod_small x m : 0 <= x < m -> Rmod x m = x.
Proof.
  intros [A B]. unfold Rmod. assert (Hm : 0 < m) by lra. assert (E : (0%Z = Int_part (x / m))); [|rewrite <- E; ring]. apply Int_part_spec.
  assert (0 <= x / m) by (apply Rmult_le_pos; [lra|left; apply Rinv_0_lt_compat, Hm]). assert (x / m < 1) by (apply Rmult_lt_reg_r with m; [exact Hm|unfold Rdiv; rewrite Rmult_assoc, Rinv_l; lra]). lra.
Qed.
Definition wrap (x : R) : R := Rmod (x + PI) TP - PI.
Lemma wrap_shift x k : wrap (x + TP * IZR k) = wrap x.
Proof. unfold wrap. replace (x + TP * IZR k + PI) with (x + PI + TP * IZR k) by ring. rewrite Rmod_shift by apply TP_pos. reflexivity. Qed.
Lemma wrap_range x : - PI <= wrap x < PI.
Proof. unfold wrap. pose proof (Rmod_range (x + PI) TP TP_pos). unfold TP in *. lra. Qed.
Lemma wrap_eqm x : exists k : Z, x = wrap x + TP * IZR k.
Proof. destruct (Rmod_eqm (x + PI) TP) as [k E]. exists k. unfold wrap. lra. Qed.
Lemma wrap_small x : - PI <= x < PI -> wrap x = x.
Proof. intro H. unfold wrap. rewrite Rmod_small; [ring|unfold TP; lra]. Qed.
Lemma wrap_opp x : wrap x <> - PI -> wrap (- x) = - wrap x.
Proof.
  intro H. destruct (wrap_eqm x) as [k E]. pose proof (wrap_range x). rewrite E at 1. replace (- (wrap x + TP * IZR k)) with (- wrap x + TP * IZR (- k)) by (rewrite opp_IZR; ring).
  rewrite wrap_shift. apply wrap_small. lra.
Qed.
Lemma wrap_half x : wrap x = - PI <-> exists k : Z, x = PI + TP * IZR k.
Proof.
  split.
  - intro H. destruct (wrap_eqm x) as [k E]. exists (k - 1)%Z. rewrite E, H, minus_IZR. unfold TP. ring.
  - intros [k ->]. rewrite wrap_shift. transitivity (wrap (- PI + TP * IZR 1)); [f_equal; unfold TP; ring|]. rewrite wrap_shift. apply wrap_small. pose proof PI_RGT_0. lra.
Qed.

(** *** the parts of the function *)
Lemma Q2 : Q2R 2 = 2. Proof. unfold Q2R. cbn. field. Qed.
Lemma Q0 : Q2R 0 = 0. Proof. unfold Q2R. cbn. field. Qed.
Lemma Q1 : Q2R 1 = 1. Proof. unfold Q2R. cbn. field. Qed.
Lemma Q4 : Q2R 4 = 4. Proof. unfold Q2R. cbn. field. Qed.
Lemma Q180 : Q2R 180 = 180. Proof. unfold Q2R. cbn. field. Qed.
Lemma QR : Q2R 6378137 = 6378137. Proof. unfold Q2R. cbn [Qnum Qden]. field. Qed.
Lemma Q6 : Q2R (1 # 1000000) = 1 / 1000000. Proof. unfold Q2R. cbn [Qnum Qden]. field. Qed.
Lemma radians_def x : radians x = x * (PI / 180).
Proof. unfold radians, deg2rad. cbn [f_mul f_div f_pi f_cst real_ops]. rewrite Q180. reflexivity. Qed.
Definition north (p : R * R) : R := sin (radians (snd p)).
Definition east (p : R * R) : R := cos (radians (snd p)) * sin (radians (fst p)).
Definition level (p : R * R) : R := cos (radians (snd p)) * cos (radians (fst p)).
Lemma az_def p : az p = Rmod (atan2 (east p) (north p)) TP.
Proof. unfold az, azimuth. cbn [f_mod f_atan2 f_mul f_cos f_sin f_cst f_pi real_ops]. rewrite Q2. reflexivity. Qed.
Lemma half_sin x : sin (x / 2) * sin (x / 2) = (1 - cos x) / 2.
Proof. pose proof (cos_2a_sin (x / 2)) as H. replace (2 * (x / 2)) with x in H by field. rewrite H. field. Qed.
Lemma haversine_def p : haversine p = (1 - level p) / 2.
Proof. unfold haversine, level. rewrite !half_sin. field. Qed.
Lemma cos_sq_le x : cos x * cos x <= 1. Proof. pose proof (COS_bound x). nra. Qed.
Lemma prod_bound a b : -1 <= a <= 1 -> -1 <= b <= 1 -> -1 <= a * b <= 1. Proof. nra. Qed.
Lemma level_bound p : -1 <= level p <= 1. Proof. unfold level. apply prod_bound; apply COS_bound. Qed.
Lemma haversine_bound p : 0 <= haversine p <= 1. Proof. rewrite haversine_def. pose proof (level_bound p). lra. Qed.
Definition dist_of (v : R) : R := 2 * atan2 (sqrt ((1 - v) / 2)) (sqrt (1 - (1 - v) / 2)).
Lemma colat_def p : angular_distance p = dist_of (level p).
Proof.
  unfold angular_distance, colat. cbn [f_atan2 f_sqrt f_add f_mul f_sub f_div f_sin f_cos f_cst real_ops]. unfold sq. cbn [f_mul real_ops]. rewrite Q2, Q1. fold (radians (fst p)) (radians (snd p)).
  fold (haversine p). rewrite haversine_def. reflexivity.
Qed.
Definition seg (p q : R * R) : R := (1 - cos (angular_distance p + (angular_distance q - angular_distance p) / 2)) * wrap (az q - az p).
Lemma integrand_def p q : integrand real_ops p q = seg p q.
Proof.
  unfold integrand, seg, wrap. cbn [f_mod f_add f_sub f_mul f_div f_cos f_cst f_pi real_ops]. rewrite Q1, Q2. reflexivity.
Qed.
Fixpoint segs (l : list (R * R)) : R := match l with p :: ((q :: _) as t) => seg p q + segs t | _ => 0 end.
Lemma fold_add l : forall x, fold_left Rplus l x = x + fold_left Rplus l 0.
Proof. induction l as [|a l IH]; intro x; cbn [fold_left]; [ring|]. rewrite IH, (IH (0 + a)). ring. Qed.
Lemma integrands_sum l : fold_left Rplus (integrands real_ops l) 0 = segs l.
Proof.
  induction l as [|p l IH]; [reflexivity|]. destruct l as [|q l]; [reflexivity|]. change (integrands real_ops (p :: q :: l)) with (integrand real_ops p q :: integrands real_ops (q :: l)).
  change (segs (p :: q :: l)) with (seg p q + segs (q :: l)). cbn [fold_left]. rewrite fold_add, IH, integrand_def. ring.
Qed.
Lemma area_def l : area l = Rabs (segs l) * earth_radius ^ 2 / 1000000.
Proof.
  unfold area, area_latlon_polygon. cbn [f_mul f_div f_abs f_add f_pi f_cst real_ops]. unfold sq. cbn [f_mul real_ops]. rewrite Q0, Q4, Q6. rewrite integrands_sum. unfold earth_radius. rewrite QR.
  field. apply PI_neq0.
Qed.

(** *** invariances *)
Lemma seg_ext p q p' q' : level p' = level p -> level q' = level q -> east p' = east p -> east q' = east q -> north p' = north p -> north q' = north q -> seg p' q' = seg p q.
Proof. intros. unfold seg. rewrite !colat_def, !az_def. congruence. Qed.
Lemma sin_turns x k : sin (x + TP * IZR k) = sin x /\ cos (x + TP * IZR k) = cos x.
Proof.
  assert (P : forall n y, sin (y + TP * INR n) = sin y /\ cos (y + TP * INR n) = cos y).
  { intros n y. replace (y + TP * INR n) with (y + 2 * INR n * PI) by (unfold TP; ring). split; [apply sin_period|apply cos_period]. }
  destruct (Z_le_dec 0 k) as [H|H].
  - rewrite <- (Z2Nat.id k H), <- INR_IZR_INZ. apply P.
  - destruct (P (Z.to_nat (- k)) (x + TP * IZR k)) as [A B]. rewrite INR_IZR_INZ, Z2Nat.id in A, B by lia. rewrite opp_IZR in A, B. replace (x + TP * IZR k + TP * - IZR k) with x in A, B by ring. auto.
Qed.
Lemma same_place_parts p q : same_place p q -> level q = level p /\ east q = east p /\ north q = north p.
Proof.
  intros [E [k F]]. unfold level, east, north. rewrite E, F, !radians_def. replace ((fst p + 360 * IZR k) * (PI / 180)) with (fst p * (PI / 180) + TP * IZR k) by (unfold TP; field).
  destruct (sin_turns (fst p * (PI / 180)) k) as [-> ->]. auto.
Qed.
Lemma segs_same l l' : Forall2 same_place l l' -> segs l' = segs l.
Proof.
  induction 1 as [|p p' l l' H H1 IH]; [reflexivity|]. destruct H1 as [|q q' l l' H2 H1]; [reflexivity|].
  change (seg p' q' + segs (q' :: l') = seg p q + segs (q :: l)). rewrite IH. f_equal.
  destruct (same_place_parts _ _ H) as [A1 [A2 A3]]. destruct (same_place_parts _ _ H2) as [B1 [B2 B3]]. apply seg_ext; assumption.
Qed.

Lemma atan2_opp y x : (x < 0 -> y <> 0) -> atan2 (- y) x = - atan2 y x.
Proof.
  intro H. unfold atan2. replace (- y / x) with (- (y / x)) by (unfold Rdiv; ring). rewrite atan_opp. destruct (Rlt_dec 0 x); [reflexivity|].
  destruct (Rlt_dec x 0) as [L|L].
  - specialize (H L). destruct (Rlt_dec (- y) 0), (Rlt_dec y 0); try ring; exfalso; lra.
  - destruct (Rlt_dec 0 (- y)), (Rlt_dec 0 y), (Rlt_dec (- y) 0), (Rlt_dec y 0); try ring; exfalso; lra.
Qed.
Lemma az_mirror_ew p : exists k : Z, az (mirror_ew p) = - az p + TP * IZR k.
Proof.
  assert (E : east (mirror_ew p) = - east p /\ north (mirror_ew p) = north p).
  { unfold east, north, mirror_ew. cbn [fst snd]. rewrite !radians_def. replace (- fst p * (PI / 180)) with (- (fst p * (PI / 180))) by ring. rewrite sin_neg. split; ring. }
  rewrite !az_def. destruct E as [-> ->]. destruct (Rmod_eqm (atan2 (- east p) (north p)) TP) as [k1 E1]. destruct (Rmod_eqm (atan2 (east p) (north p)) TP) as [k2 E2].
  destruct (Rlt_dec (north p) 0) as [L|L]; [destruct (Req_dec (east p) 0) as [Z|Z]|].
  - rewrite Z in *. replace (- 0) with 0 in * by ring. assert (A : atan2 0 (north p) = PI).
    { unfold atan2. destruct (Rlt_dec 0 (north p)); [lra|]. destruct (Rlt_dec (north p) 0); [|lra]. destruct (Rlt_dec 0 0); [lra|]. unfold Rdiv. rewrite Rmult_0_l, atan_0. ring. }
    rewrite A in *. exists (1 - k1 - k2)%Z. rewrite !minus_IZR. unfold TP in *. lra.
  - rewrite atan2_opp in * by auto. exists (- k1 - k2)%Z. rewrite minus_IZR, opp_IZR. lra.
  - rewrite atan2_opp in * by (intro; lra). exists (- k1 - k2)%Z. rewrite minus_IZR, opp_IZR. lra.
Qed.
Lemma half_turn_wrap p q : half_turn p q <-> wrap (az q - az p) = - PI.
Proof. rewrite wrap_half. unfold half_turn, TP. reflexivity. Qed.
Lemma level_mirror_ew p : level (mirror_ew p) = level p.
Proof. unfold level, mirror_ew. cbn [fst snd]. rewrite !radians_def. replace (- fst p * (PI / 180)) with (- (fst p * (PI / 180))) by ring. rewrite cos_neg. reflexivity. Qed.
Lemma level_mirror_ns p : level (mirror_ns p) = level p.
Proof. unfold level, mirror_ns. cbn [fst snd]. rewrite !radians_def. replace (- snd p * (PI / 180)) with (- (snd p * (PI / 180))) by ring. rewrite cos_neg. reflexivity. Qed.
Lemma seg_opp p q p' q' (k : Z) : level p' = level p -> level q' = level q -> az q' - az p' = - (az q - az p) + TP * IZR k -> ~ half_turn p q -> seg p' q' = - seg p q.
Proof.
  intros A B E H. unfold seg. rewrite !colat_def, A, B, E, wrap_shift, wrap_opp; [ring|]. intro Z. apply H, half_turn_wrap, Z.
Qed.
Lemma segs_opp (f : R * R -> R * R) l : (forall p q, adjacent p q l -> seg (f p) (f q) = - seg p q) -> segs (map f l) = - segs l.
Proof.
  induction l as [|p l IH]; intro H; [cbn; ring|]. destruct l as [|q l]; [cbn; ring|].
  change (seg (f p) (f q) + segs (map f (q :: l)) = - (seg p q + segs (q :: l))). rewrite IH, (H p q) by (try constructor; intros; apply H; constructor; assumption). ring.
Qed.
Lemma segs_mirror_ew l : no_half_turn l -> segs (map mirror_ew l) = - segs l.
Proof.
  intro H. apply segs_opp. intros p q A. destruct (az_mirror_ew p) as [k1 E1]. destruct (az_mirror_ew q) as [k2 E2]. apply seg_opp with (k := (k2 - k1)%Z); [apply level_mirror_ew|apply level_mirror_ew| |exact (H p q A)].
  rewrite E1, E2, minus_IZR. ring.
Qed.
Lemma atan2_flip y x : (x, y) <> (0, 0) -> exists k : Z, atan2 y (- x) = PI - atan2 y x + TP * IZR k.
Proof.
  intro H. unfold atan2. replace (y / - x) with (- (y / x)) by (destruct (Req_dec x 0) as [->|N]; [rewrite Ropp_0; unfold Rdiv; rewrite Rinv_0; ring|field; exact N]). rewrite atan_opp. pose proof PI_RGT_0. unfold TP.
  destruct (Rlt_dec 0 (- x)), (Rlt_dec 0 x), (Rlt_dec (- x) 0), (Rlt_dec x 0); try (exfalso; lra).
  - destruct (Rlt_dec y 0); [exists (-1)%Z|exists 0%Z]; cbn [IZR]; rewrite ?opp_IZR; lra.
  - destruct (Rlt_dec y 0); [exists (-1)%Z|exists 0%Z]; lra.
  - assert (x = 0) by lra. subst x. destruct (Rlt_dec 0 y); [exists 0%Z; lra|]. destruct (Rlt_dec y 0); [exists (-1)%Z; lra|]. exfalso. apply H. f_equal. lra.
Qed.
Lemma az_mirror_ns p : ~ at_origin p -> exists k : Z, az (mirror_ns p) = PI - az p + TP * IZR k.
Proof.
  intro H. assert (E : east (mirror_ns p) = east p /\ north (mirror_ns p) = - north p).
  { unfold east, north, mirror_ns. cbn [fst snd]. rewrite !radians_def. replace (- snd p * (PI / 180)) with (- (snd p * (PI / 180))) by ring. rewrite sin_neg, cos_neg. split; ring. }
  rewrite !az_def. destruct E as [-> ->]. destruct (Rmod_eqm (atan2 (east p) (- north p)) TP) as [k1 E1]. destruct (Rmod_eqm (atan2 (east p) (north p)) TP) as [k2 E2].
  destruct (atan2_flip (east p) (north p)) as [k E]. { intro Z. apply H. unfold at_origin. unfold north, east in Z. rewrite !radians_def in Z. split; [exact (f_equal fst Z)|exact (f_equal snd Z)]. }
  exists (k - k1 - k2)%Z. rewrite !minus_IZR. lra.
Qed.
Lemma adjacent_in p q l : adjacent p q l -> In p l /\ In q l.
Proof. induction 1 as [l|x l H [A B]]; [cbn; auto|split; right; assumption]. Qed.
Lemma segs_mirror_ns l : no_half_turn l -> (forall p, In p l -> ~ at_origin p) -> segs (map mirror_ns l) = - segs l.
Proof.
  intros H O. apply segs_opp. intros p q A. destruct (adjacent_in _ _ _ A) as [Ip Iq]. destruct (az_mirror_ns p (O p Ip)) as [k1 E1]. destruct (az_mirror_ns q (O q Iq)) as [k2 E2].
  apply seg_opp with (k := (k2 - k1)%Z); [apply level_mirror_ns|apply level_mirror_ns| |exact (H p q A)]. rewrite E1, E2, minus_IZR. ring.
Qed.
Lemma seg_sym p q : ~ half_turn p q -> seg q p = - seg p q.
Proof.
  intro H. unfold seg. replace (az p - az q) with (- (az q - az p)) by ring. rewrite wrap_opp by (intro Z; apply H, half_turn_wrap, Z).
  replace (angular_distance q + (angular_distance p - angular_distance q) / 2) with (angular_distance p + (angular_distance q - angular_distance p) / 2) by field. ring.
Qed.
Lemma segs_app l p r : segs (app l (p :: r)) = segs (app l [p]) + segs (p :: r).
Proof.
  induction l as [|x l IH]; [cbn [app]; change (segs [p]) with 0; ring|]. destruct l as [|y l].
  - cbn [app]. change (seg x p + segs (p :: r) = (seg x p + segs [p]) + segs (p :: r)). change (segs [p]) with 0. ring.
  - cbn [app] in *. change (seg x y + segs (y :: app l (p :: r)) = (seg x y + segs (y :: app l [p])) + segs (p :: r)). rewrite IH. ring.
Qed.
Lemma segs_rev l : no_half_turn l -> segs (rev l) = - segs l.
Proof.
  induction l as [|p l IH]; intro H; [cbn; ring|]. destruct l as [|q l]; [cbn; ring|].
  cbn [rev] in *. rewrite <- app_assoc. cbn [app]. rewrite segs_app, IH by (intros x y A; apply H; constructor; exact A).
  change (segs [q; p]) with (seg q p + 0). change (segs (p :: q :: l)) with (seg p q + segs (q :: l)). rewrite (seg_sym p q) by (apply H; constructor). ring.
Qed.
Lemma segs_palindrome p l : no_half_turn (p :: l) -> segs (app (rev l) (p :: l)) = 0.
Proof. intro H. rewrite segs_app. pose proof (segs_rev (p :: l) H) as E. cbn [rev] in E. rewrite E. ring. Qed.
Lemma segs_const p l : (forall q, In q l -> q = p) -> segs l = 0.
Proof.
  induction l as [|x l IH]; intro H; [reflexivity|]. destruct l as [|y l]; [reflexivity|]. change (seg x y + segs (y :: l) = 0). rewrite IH by (intros q Hq; apply H; right; exact Hq).
  rewrite (H x (or_introl eq_refl)), (H y (or_intror (or_introl eq_refl))). unfold seg. replace (az p - az p) with 0 by ring. rewrite wrap_small by (pose proof PI_RGT_0; lra). ring.
Qed.
Lemma segs_restart x y l : segs (app (y :: l) [x; y]) = segs (x :: app (y :: l) [x]).
Proof.
  change (segs (x :: app (y :: l) [x])) with (seg x y + segs (app (y :: l) [x])). rewrite (segs_app (y :: l) x [y]). change (segs [x; y]) with (seg x y + 0). ring.
Qed.

(** *** polar coordinates about (0, 0) *)
Lemma atan2_polar y x : let r := sqrt (x ^ 2 + y ^ 2) in x = r * cos (atan2 y x) /\ y = r * sin (atan2 y x).
Proof.
  intro r. pose proof PI_RGT_0 as HPI.
  assert (P : forall u v, 0 < u -> u = sqrt (u ^ 2 + v ^ 2) * cos (atan (v / u)) /\ v = sqrt (u ^ 2 + v ^ 2) * sin (atan (v / u))).
  { intros u v Hu. assert (E : sqrt (u ^ 2 + v ^ 2) = u * sqrt (1 + (v / u)²)).
    { replace (u ^ 2 + v ^ 2) with (u² * (1 + (v / u)²)) by (unfold Rsqr; field; lra). rewrite sqrt_mult; [rewrite sqrt_Rsqr by lra; reflexivity|apply Rle_0_sqr|pose proof (Rle_0_sqr (v / u)); lra]. }
    assert (0 < sqrt (1 + (v / u)²)) by (apply sqrt_lt_R0; pose proof (Rle_0_sqr (v / u)); lra). rewrite cos_atan, sin_atan, E. split; field; lra. }
  unfold atan2. destruct (Rlt_dec 0 x) as [L|L]; [exact (P x y L)|]. destruct (Rlt_dec x 0) as [L'|L'].
  - destruct (P (- x) (- y) ltac:(lra)) as [A B]. replace ((- x) ^ 2 + (- y) ^ 2) with (x ^ 2 + y ^ 2) in A, B by ring. fold r in A, B. replace (- y / - x) with (y / x) in A, B by (field; lra).
    destruct (Rlt_dec y 0); [rewrite <- (cos_period _ 1), <- (sin_period _ 1); replace (atan (y / x) - PI + 2 * INR 1 * PI) with (atan (y / x) + PI) by (cbn [INR]; ring)|]; rewrite neg_cos, neg_sin; lra.
  - assert (x = 0) as Ex by lra. assert (Er : r = Rabs y) by (unfold r; rewrite Ex; replace (0 ^ 2 + y ^ 2) with (y²) by (unfold Rsqr; ring); apply sqrt_Rsqr_abs). rewrite Er.
    destruct (Rlt_dec 0 y); [rewrite cos_PI2, sin_PI2, Rabs_right by lra; lra|]. destruct (Rlt_dec y 0); [rewrite cos_neg, sin_neg, cos_PI2, sin_PI2, Rabs_left by lra; lra|].
    assert (y = 0) as -> by lra. rewrite Rabs_R0. lra.
Qed.
Lemma az_polar p : let r := sqrt (north p ^ 2 + east p ^ 2) in north p = r * cos (az p) /\ east p = r * sin (az p) /\ 0 <= az p < 2 * PI.
Proof.
  intro r. destruct (atan2_polar (east p) (north p)) as [A B]. fold r in A, B. rewrite az_def. destruct (Rmod_eqm (atan2 (east p) (north p)) TP) as [k E]. rewrite E in A, B.
  destruct (sin_turns (Rmod (atan2 (east p) (north p)) TP) k) as [S C]. rewrite C in A. rewrite S in B. split; [exact A|]. split; [exact B|]. exact (Rmod_range _ _ TP_pos).
Qed.
Lemma dist_cos v : -1 <= v <= 1 -> cos (dist_of v) = v /\ 0 <= dist_of v <= PI.
Proof.
  intro H. unfold dist_of. set (s := sqrt ((1 - v) / 2)). set (c := sqrt (1 - (1 - v) / 2)).
  assert (Es : s ^ 2 = (1 - v) / 2) by (apply pow2_sqrt; lra). assert (Ec : c ^ 2 = (1 + v) / 2) by (transitivity (1 - (1 - v) / 2); [apply pow2_sqrt; lra|field]).
  assert (S0 : 0 <= s) by apply sqrt_pos. assert (C0 : 0 <= c) by apply sqrt_pos.
  destruct (atan2_polar s c) as [A B]. replace (c ^ 2 + s ^ 2) with 1 in A, B by lra. rewrite sqrt_1, Rmult_1_l in A, B. pose proof PI_RGT_0. split.
  - rewrite cos_2a, <- A, <- B. lra.
  - assert (0 <= atan2 s c <= PI / 2); [|lra]. unfold atan2. destruct (Rlt_dec 0 c) as [L|L].
    + pose proof (atan_bound (s / c)). split; [|lra]. assert (0 <= s / c) by (apply Rmult_le_pos; [lra|left; apply Rinv_0_lt_compat, L]).
      rewrite <- atan_0. destruct (Req_dec 0 (s / c)) as [<-|N]; [lra|left; apply atan_increasing; lra].
    + destruct (Rlt_dec c 0); [lra|]. destruct (Rlt_dec 0 s); [lra|]. destruct (Rlt_dec s 0); lra.
Qed.
Lemma angular_distance_cos p : cos (angular_distance p) = level p /\ 0 <= angular_distance p <= PI.
Proof. rewrite colat_def. apply dist_cos, level_bound. Qed.

(** *** circles about (0, 0) *)
Fixpoint turns (l : list (R * R)) : R := match l with p :: ((q :: _) as t) => wrap (az q - az p) + turns t | _ => 0 end.
Lemma segs_circle c l : (forall p, In p l -> angular_distance p = c) -> segs l = (1 - cos c) * turns l.
Proof.
  induction l as [|p l IH]; intro H; [cbn; ring|]. destruct l as [|q l]; [cbn; ring|]. change (seg p q + segs (q :: l) = (1 - cos c) * (wrap (az q - az p) + turns (q :: l))).
  rewrite IH by (intros x Hx; apply H; right; exact Hx). unfold seg. rewrite (H p (or_introl eq_refl)), (H q (or_intror (or_introl eq_refl))). replace (c + (c - c) / 2) with c by field. ring.
Qed.
Lemma last_indep {A} (l : list A) : forall q x y, last (q :: l) x = last (q :: l) y.
Proof. induction l as [|z l IH]; intros q x y; [reflexivity|]. exact (IH z x y). Qed.
Lemma turns_eqm l : forall p, exists k : Z, turns (p :: l) = az (last (p :: l) p) - az p + TP * IZR k.
Proof.
  induction l as [|q l IH]; intro p; [exists 0%Z; cbn; ring|]. change (turns (p :: q :: l)) with (wrap (az q - az p) + turns (q :: l)). destruct (IH q) as [k E]. destruct (wrap_eqm (az q - az p)) as [k' E'].
  exists (k - k')%Z. rewrite E, minus_IZR. change (last (p :: q :: l) p) with (last (q :: l) p). rewrite (last_indep l q p q). lra.
Qed.

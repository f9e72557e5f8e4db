From Coq Require Import Reals Qreals Lra Lia Psatz.
From Verif Require Import M_Base M_Area M_AreaR S_Area L_Area.
Open Scope R_scope.

Lemma az_eval p th : atan2 (east p) (north p) = th -> 0 <= th < 2 * PI -> az p = th.
Proof. intros E H. rewrite az_def, E. apply Rmod_small. exact H. Qed.
Lemma az_eval_neg p th : atan2 (east p) (north p) = th -> - (2 * PI) <= th < 0 -> az p = th + 2 * PI.
Proof. intros E H. rewrite az_def, E. transitivity (Rmod (th + 2 * PI + TP * IZR (-1)) TP); [f_equal; unfold TP; ring|]. rewrite Rmod_shift by apply TP_pos. apply Rmod_small. unfold TP. lra. Qed.
Lemma atan2_up y : 0 < y -> atan2 y 0 = PI / 2.
Proof. intro H. unfold atan2. destruct (Rlt_dec 0 0); [lra|]. destruct (Rlt_dec 0 y); [reflexivity|lra]. Qed.
Lemma atan2_down y : y < 0 -> atan2 y 0 = - (PI / 2).
Proof. intro H. unfold atan2. destruct (Rlt_dec 0 0); [lra|]. destruct (Rlt_dec 0 y); [lra|]. destruct (Rlt_dec y 0); [reflexivity|lra]. Qed.
Lemma atan2_right x : 0 <= x -> atan2 0 x = 0.
Proof.
  intro H. unfold atan2. destruct (Rlt_dec 0 x); [unfold Rdiv; rewrite Rmult_0_l; apply atan_0|]. destruct (Rlt_dec x 0); [lra|]. destruct (Rlt_dec 0 0); [lra|reflexivity].
Qed.
Lemma radians_0 : radians 0 = 0. Proof. rewrite radians_def. ring. Qed.
Lemma radians_opp x : radians (- x) = - radians x. Proof. rewrite !radians_def. ring. Qed.
Lemma small_angle : 0 < radians 1 < PI / 2.
Proof. rewrite radians_def. pose proof PI_RGT_0. lra. Qed.
Lemma sin_small : 0 < sin (radians 1).
Proof. apply sin_gt_0; pose proof small_angle; pose proof PI_RGT_0; lra. Qed.
Lemma cos_small : 0 < cos (radians 1) < 1.
Proof.
  pose proof small_angle. pose proof PI_RGT_0. split; [apply cos_gt_0; lra|]. apply Rlt_le_trans with (cos 0); [apply cos_decreasing_1; lra|rewrite cos_0; lra].
Qed.

(** *** reversal with a half turn *)
Definition west_pt : R * R := (-1, 0). Definition east_pt : R * R := (1, 0). Definition north_pt : R * R := (0, 1).
Lemma az_west : az west_pt = 3 * PI / 2.
Proof.
  pose proof PI_RGT_0. rewrite (az_eval_neg west_pt (- (PI / 2))); [field| |lra]. unfold north, east, west_pt. cbn [fst snd]. rewrite radians_0, sin_0, cos_0. 
  replace (-1) with (- (1)) by ring. rewrite radians_opp, sin_neg. apply atan2_down. pose proof sin_small. lra.
Qed.
Lemma az_east : az east_pt = PI / 2.
Proof. pose proof PI_RGT_0. apply az_eval; [|lra]. unfold north, east, east_pt. cbn [fst snd]. rewrite radians_0, sin_0, cos_0. apply atan2_up. pose proof sin_small. lra. Qed.
Lemma az_north : az north_pt = 0.
Proof. pose proof PI_RGT_0. apply az_eval; [|lra]. unfold north, east, north_pt. cbn [fst snd]. rewrite radians_0, sin_0, Rmult_0_r. apply atan2_right. pose proof sin_small. lra. Qed.
Lemma same_distance p : In p [west_pt; east_pt; north_pt] -> angular_distance p = dist_of (cos (radians 1)).
Proof.
  intros [<-|[<-|[<-|[]]]]; rewrite colat_def; f_equal; unfold level, west_pt, east_pt, north_pt; cbn [fst snd]; rewrite radians_0, cos_0; [|ring|ring].
  replace (-1) with (- (1)) by ring. rewrite radians_opp, cos_neg. ring.
Qed.
Definition triangle_at_origin : list (R * R) := [west_pt; east_pt; north_pt; west_pt].
Lemma triangle_areas : 0 < area triangle_at_origin /\ area (rev triangle_at_origin) = 0.
Proof.
  pose proof PI_RGT_0 as HPI. set (c := dist_of (cos (radians 1))). assert (Hc : cos c = cos (radians 1)) by (apply dist_cos; pose proof cos_small; lra).
  assert (D : forall p, In p triangle_at_origin -> angular_distance p = c) by (intros p Hp; apply same_distance; unfold triangle_at_origin in Hp; cbn [In] in *; tauto).
  assert (D' : forall p, In p (rev triangle_at_origin) -> angular_distance p = c) by (intros p Hp; apply D; rewrite in_rev; exact Hp).
  pose proof (segs_circle c _ D) as E. pose proof (segs_circle c _ D') as E'. unfold triangle_at_origin in E, E'. cbn [rev app] in E'.
  assert (W : forall x y, - PI <= y < PI -> x = y + TP * IZR 0 \/ x = y + TP * IZR 1 \/ x = y + TP * IZR (-1) -> wrap x = y).
  { intros x y Hy [->|[->| ->]]; rewrite wrap_shift; apply wrap_small, Hy. }
  change (turns [west_pt; east_pt; north_pt; west_pt]) with (wrap (az east_pt - az west_pt) + (wrap (az north_pt - az east_pt) + (wrap (az west_pt - az north_pt) + 0))) in E.
  change (turns [west_pt; north_pt; east_pt; west_pt]) with (wrap (az north_pt - az west_pt) + (wrap (az east_pt - az north_pt) + (wrap (az west_pt - az east_pt) + 0))) in E'.
  rewrite az_west, az_east, az_north in E, E'.
  rewrite (W (PI / 2 - 3 * PI / 2) (- PI)) in E by (unfold TP; lra). rewrite (W (0 - PI / 2) (- (PI / 2))) in E by (unfold TP; lra). rewrite (W (3 * PI / 2 - 0) (- (PI / 2))) in E by (unfold TP; lra).
  rewrite (W (0 - 3 * PI / 2) (PI / 2)) in E' by (unfold TP; lra). rewrite (W (PI / 2 - 0) (PI / 2)) in E' by (unfold TP; lra). rewrite (W (3 * PI / 2 - PI / 2) (- PI)) in E' by (unfold TP; lra).
  rewrite !area_def. unfold triangle_at_origin. cbn [rev app]. rewrite E, E', Hc. split.
  - pose proof cos_small as HC. assert (N : (1 - cos (radians 1)) * (- PI + (- (PI / 2) + (- (PI / 2) + 0))) < 0) by nra. rewrite Rabs_left by exact N.
    apply Rdiv_lt_0_compat; [|lra]. apply Rmult_lt_0_compat; [lra|]. unfold earth_radius. apply pow_lt. lra.
  - replace ((1 - cos (radians 1)) * (PI / 2 + (PI / 2 + (- PI + 0)))) with 0 by field. rewrite Rabs_R0. field.
Qed.

(** *** mirror image of a contour through (0, 0) *)
Definition origin_pt : R * R := (0, 0). Definition p_pt : R * R := (90, 45). Definition q_pt : R * R := (45, 0).
Lemma radians_90 : radians 90 = PI / 2. Proof. rewrite radians_def. field. Qed.
Lemma radians_45 : radians 45 = PI / 4. Proof. rewrite radians_def. field. Qed.
Lemma cos45_pos : 0 < cos (PI / 4). Proof. rewrite cos_PI4. apply Rdiv_lt_0_compat; [lra|]. apply sqrt_lt_R0. lra. Qed.
Lemma sin45 : sin (PI / 4) = cos (PI / 4). Proof. rewrite sin_PI4, cos_PI4. reflexivity. Qed.
Lemma dist_eval p c : level p = cos c -> 0 <= c <= PI -> angular_distance p = c.
Proof.
  intros E H. destruct (angular_distance_cos p) as [C B]. rewrite E in C. destruct (Rtotal_order (angular_distance p) c) as [L|[L|L]]; [|exact L|].
  - exfalso. assert (cos c < cos (angular_distance p)) by (apply cos_decreasing_1; lra). lra.
  - exfalso. assert (cos (angular_distance p) < cos c) by (apply cos_decreasing_1; lra). lra.
Qed.
Lemma mirror_through_origin : area (map mirror_ns [origin_pt; p_pt; q_pt; origin_pt]) <> area [origin_pt; p_pt; q_pt; origin_pt].
Proof.
  pose proof PI_RGT_0 as HPI. pose proof cos45_pos as C45.
  assert (Do : forall p, snd p = 0 -> fst p = 0 -> angular_distance p = 0 /\ az p = 0).
  { intros [x y] Hy Hx. cbn in Hx, Hy. subst. split; [apply dist_eval; [|lra]|apply az_eval; [|lra]]; unfold level, east, north; cbn [fst snd]; rewrite radians_0, ?sin_0, ?cos_0; [ring|]. rewrite Rmult_0_r. apply atan2_right. lra. }
  assert (Dp : angular_distance p_pt = PI / 2 /\ az p_pt = PI / 4).
  { split; [apply dist_eval; [|lra]|apply az_eval; [|lra]]; unfold level, east, north, p_pt; cbn [fst snd]; rewrite radians_90, radians_45, ?sin_PI2, cos_PI2 || rewrite radians_90, radians_45, sin_PI2; [ring|].
    unfold atan2. destruct (Rlt_dec 0 (sin (PI / 4))) as [L|L]; [|rewrite sin45 in L; lra]. rewrite sin45. replace (cos (PI / 4) * 1 / cos (PI / 4)) with 1 by (field; lra). apply atan_1. }
  assert (Dp' : angular_distance (mirror_ns p_pt) = PI / 2 /\ az (mirror_ns p_pt) = 3 * PI / 4).
  { split; [rewrite colat_def, level_mirror_ns, <- colat_def; apply Dp|apply az_eval; [|lra]]. unfold east, north, mirror_ns, p_pt. cbn [fst snd]. rewrite radians_opp, radians_90, radians_45, sin_PI2, sin_neg, cos_neg, sin45.
    unfold atan2. destruct (Rlt_dec 0 (- cos (PI / 4))); [lra|]. destruct (Rlt_dec (- cos (PI / 4)) 0); [|lra]. destruct (Rlt_dec (cos (PI / 4) * 1) 0); [lra|].
    replace (cos (PI / 4) * 1 / - cos (PI / 4)) with (- (1)) by (field; lra). rewrite atan_opp, atan_1. field. }
  assert (Dq : forall p, snd p = 0 -> fst p = 45 -> angular_distance p = PI / 4 /\ az p = PI / 2).
  { intros [x y] Hy Hx. cbn in Hx, Hy. subst. split; [apply dist_eval; [|lra]|apply az_eval; [|lra]]; unfold level, east, north; cbn [fst snd]; rewrite radians_0, radians_45, ?sin_0, ?cos_0; [ring|]. apply atan2_up. rewrite sin45. lra. }
  assert (W : forall x y, x = y -> - PI <= y < PI -> wrap x = y) by (intros x y -> H; apply wrap_small, H).
  assert (Eo : angular_distance origin_pt = 0 /\ az origin_pt = 0) by (apply Do; reflexivity). assert (Eo' : angular_distance (mirror_ns origin_pt) = 0 /\ az (mirror_ns origin_pt) = 0) by (apply Do; cbn; ring).
  assert (Eq : angular_distance q_pt = PI / 4 /\ az q_pt = PI / 2) by (apply Dq; reflexivity). assert (Eq' : angular_distance (mirror_ns q_pt) = PI / 4 /\ az (mirror_ns q_pt) = PI / 2) by (apply Dq; cbn; ring).
  destruct Eo as [O1 O2], Eo' as [O1' O2'], Eq as [Q1 Q2], Eq' as [Q1' Q2'], Dp as [P1 P2], Dp' as [P1' P2'].
  rewrite !area_def. cbn [map].
  change (segs [origin_pt; p_pt; q_pt; origin_pt]) with (seg origin_pt p_pt + (seg p_pt q_pt + (seg q_pt origin_pt + 0))).
  change (segs [mirror_ns origin_pt; mirror_ns p_pt; mirror_ns q_pt; mirror_ns origin_pt]) with (seg (mirror_ns origin_pt) (mirror_ns p_pt) + (seg (mirror_ns p_pt) (mirror_ns q_pt) + (seg (mirror_ns q_pt) (mirror_ns origin_pt) + 0))).
  unfold seg. rewrite O1, O2, O1', O2', Q1, Q2, Q1', Q2', P1, P2, P1', P2'.
  rewrite (W (PI / 4 - 0) (PI / 4)) by lra. rewrite (W (PI / 2 - PI / 4) (PI / 4)) by lra. rewrite (W (0 - PI / 2) (- (PI / 2))) by lra. rewrite (W (3 * PI / 4 - 0) (3 * PI / 4)) by lra. rewrite (W (PI / 2 - 3 * PI / 4) (- (PI / 4))) by lra.
  replace (0 + (PI / 2 - 0) / 2) with (PI / 4) by field. replace (PI / 2 + (PI / 4 - PI / 2) / 2) with (3 * PI / 8) by field. replace (PI / 4 + (0 - PI / 4) / 2) with (PI / 8) by field.
  assert (L1 : cos (PI / 4) < cos (PI / 8)) by (apply cos_decreasing_1; lra). assert (L2 : cos (3 * PI / 8) < cos (PI / 4)) by (apply cos_decreasing_1; lra).
  set (f1 := cos (PI / 8)) in *. set (f2 := cos (PI / 4)) in *. set (f3 := cos (3 * PI / 8)) in *. intro E.
  assert (E' : Rabs ((1 - f2) * (3 * PI / 4) + ((1 - f3) * - (PI / 4) + ((1 - f1) * - (PI / 2) + 0))) = Rabs ((1 - f2) * (PI / 4) + ((1 - f3) * (PI / 4) + ((1 - f1) * - (PI / 2) + 0)))).
  { apply Rmult_eq_reg_r with (earth_radius ^ 2 / 1000000); [|apply Rgt_not_eq, Rdiv_lt_0_compat; [unfold earth_radius; apply pow_lt; lra|lra]]. unfold Rdiv in *. lra. }
  assert (X : forall u v, Rabs u = Rabs v -> u = v \/ u = - v) by (intros u v; unfold Rabs; destruct (Rcase_abs u), (Rcase_abs v); intros; [left|right|right|left]; lra).
  apply X in E' as [E'|E'].
  - assert (Z : (f3 - f2) * (PI / 2) = 0) by lra. apply Rmult_integral in Z as [Z|Z]; lra.
  - assert (Z : (f1 - f2) * PI = 0) by lra. apply Rmult_integral in Z as [Z|Z]; lra.
Qed.

(** *** a diamond around (0, 0) *)
Definition south_pt : R * R := (0, -1).
Lemma az_south : az south_pt = PI.
Proof.
  pose proof PI_RGT_0. apply az_eval; [|lra]. unfold north, east, south_pt. cbn [fst snd]. rewrite radians_0, sin_0, Rmult_0_r. replace (-1) with (- (1)) by ring. rewrite radians_opp, sin_neg. pose proof sin_small.
  unfold atan2. destruct (Rlt_dec 0 (- sin (radians 1))); [lra|]. destruct (Rlt_dec (- sin (radians 1)) 0); [|lra]. destruct (Rlt_dec 0 0); [lra|]. unfold Rdiv. rewrite Rmult_0_l, atan_0. ring.
Qed.
Definition diamond : list (R * R) := [east_pt; north_pt; west_pt; south_pt; east_pt].
Lemma diamond_turns : turns diamond = - (2 * PI) /\ no_half_turn diamond.
Proof.
  pose proof PI_RGT_0 as HPI.
  assert (W : forall x, x = - (PI / 2) + TP * IZR 0 \/ x = - (PI / 2) + TP * IZR 1 -> wrap x = - (PI / 2)) by (intros x [->| ->]; rewrite wrap_shift; apply wrap_small; lra).
  assert (E1 : wrap (az north_pt - az east_pt) = - (PI / 2)) by (rewrite az_north, az_east; apply W; unfold TP; lra).
  assert (E2 : wrap (az west_pt - az north_pt) = - (PI / 2)) by (rewrite az_north, az_west; apply W; unfold TP; lra).
  assert (E3 : wrap (az south_pt - az west_pt) = - (PI / 2)) by (rewrite az_south, az_west; apply W; unfold TP; lra).
  assert (E4 : wrap (az east_pt - az south_pt) = - (PI / 2)) by (rewrite az_south, az_east; apply W; unfold TP; lra).
  split.
  - unfold diamond. change (turns [east_pt; north_pt; west_pt; south_pt; east_pt]) with (wrap (az north_pt - az east_pt) + (wrap (az west_pt - az north_pt) + (wrap (az south_pt - az west_pt) + (wrap (az east_pt - az south_pt) + 0)))).
    rewrite E1, E2, E3, E4. field.
  - intros p q A. rewrite half_turn_wrap. intro H. unfold diamond in A. assert (wrap (az q - az p) = - (PI / 2)); [|lra].
    inversion A as [l E|x l A1 E]; subst; [exact E1|]. inversion A1 as [l E|x l A2 E]; subst; [exact E2|]. inversion A2 as [l E|x l A3 E]; subst; [exact E3|]. inversion A3 as [l E|x l A4 E]; subst; [exact E4|].
    inversion A4 as [|x l A5 E]; subst. inversion A5.
Qed.
Lemma diamond_distance p : In p diamond -> angular_distance p = dist_of (cos (radians 1)).
Proof.
  intro H. assert (D : In p [west_pt; east_pt; north_pt] \/ p = south_pt) by (unfold diamond in H; cbn [In] in *; intuition). destruct D as [D| ->]; [exact (same_distance p D)|].
  rewrite colat_def. f_equal. unfold level, south_pt. cbn [fst snd]. rewrite radians_0, cos_0. replace (-1) with (- (1)) by ring. rewrite radians_opp, cos_neg. ring.
Qed.
Lemma diamond_off_origin p : In p diamond -> ~ at_origin p.
Proof.
  pose proof sin_small as S. pose proof PI_RGT_0. rewrite radians_def, Rmult_1_l in S. unfold at_origin, diamond. intros [<-|[<-|[<-|[<-|[<-|[]]]]]] [A B]; cbn [fst snd east_pt north_pt west_pt south_pt] in *.
  - rewrite Rmult_0_l, cos_0, Rmult_1_l, Rmult_1_l in B. lra.
  - rewrite Rmult_1_l in A. lra.
  - rewrite Rmult_0_l, cos_0 in B. replace (-1 * (PI / 180)) with (- (PI / 180)) in B by ring. rewrite sin_neg in B. lra.
  - replace (-1 * (PI / 180)) with (- (PI / 180)) in A by ring. rewrite sin_neg in A. lra.
  - rewrite Rmult_0_l, cos_0, Rmult_1_l, Rmult_1_l in B. lra.
Qed.

(** C147: the similarity of two contours in double arithmetic *)
From Coq Require Import Reals Lra Lia Psatz ZArith.
From Flocq Require Import Core.
From Verif Require Import M_Base M_Printer M_Frechet M_FrechetFloat S_Double S_Frechet S_FrechetFloat S_Length L_Printer L_Double L_Frechet L_Frechet2 L_Frechet3 L_FrechetFloat L_FrechetFloat2 P_FrechetFloat P_Length.
Open Scope R_scope.

(** *** relative errors *)
Definition near (c x X : R) : Prop := Rabs (x - X) <= c * X.
Lemma near_weaken c d x X : near c x X -> c <= d -> 0 <= X -> near d x X.
Proof. unfold near. intros. nra. Qed.
Lemma near_mul a b x X y Y : 0 <= X -> 0 <= Y -> 0 <= a -> 0 <= b -> near a x X -> near b y Y -> near (a + b + a * b) (x * y) (X * Y).
Proof.
  unfold near. intros HX HY Ha Hb A B. replace (x * y - X * Y) with ((x - X) * Y + X * (y - Y) + (x - X) * (y - Y)) by ring.
  eapply Rle_trans; [apply Rabs_triang|]. eapply Rle_trans; [apply Rplus_le_compat_r, Rabs_triang|]. rewrite !Rabs_mult, (Rabs_pos_eq X HX), (Rabs_pos_eq Y HY).
  assert (Rabs (x - X) * Y <= a * X * Y) by (apply Rmult_le_compat_r; assumption). assert (X * Rabs (y - Y) <= X * (b * Y)) by (apply Rmult_le_compat_l; assumption).
  assert (Rabs (x - X) * Rabs (y - Y) <= (a * X) * (b * Y)) by (apply Rmult_le_compat; try apply Rabs_pos; assumption). nra.
Qed.
Lemma near_trans a b x y z : 0 <= z -> 0 <= a -> near a x y -> near b y z -> near (a + b + a * b) x z.
Proof.
  unfold near. intros Hz Ha A B. replace (x - z) with ((x - y) + (y - z)) by ring. eapply Rle_trans; [apply Rabs_triang|]. apply Rabs_le_inv in B as B'. nra.
Qed.
Lemma near_sqrt a x X : 0 <= x -> 0 < X -> near a x X -> near a (sqrt x) (sqrt X).
Proof.
  unfold near. intros Hx HX A. pose proof (sqrt_pos x) as Sx. pose proof (sqrt_lt_R0 X HX) as SX. assert (E : x - X = (sqrt x - sqrt X) * (sqrt x + sqrt X)).
  { replace ((sqrt x - sqrt X) * (sqrt x + sqrt X)) with (sqrt x * sqrt x - sqrt X * sqrt X) by ring. rewrite !sqrt_sqrt by lra. reflexivity. }
  rewrite E, Rabs_mult, (Rabs_pos_eq (sqrt x + sqrt X)) in A by lra. apply (Rmult_le_reg_r (sqrt X)); [exact SX|]. rewrite Rmult_assoc, sqrt_sqrt by lra. pose proof (Rabs_pos (sqrt x - sqrt X)). nra.
Qed.
Lemma near_div a b x X y Y : 0 <= X -> 0 < Y -> 0 <= a -> 0 <= b <= / 2 -> near a x X -> near b y Y -> near (2 * (a + b)) (x / y) (X / Y).
Proof.
  unfold near. intros HX HY Ha Hb A B. apply Rabs_le_inv in B as B'. assert (Y1 : Y / 2 <= y) by nra. assert (Y0 : 0 < y) by lra.
  replace (x / y - X / Y) with (((x - X) * Y - X * (y - Y)) / (y * Y)) by (field; lra). unfold Rdiv at 1. rewrite Rabs_mult, (Rabs_pos_eq (/ (y * Y))) by (apply Rlt_le, Rinv_0_lt_compat; nra).
  assert (N : Rabs ((x - X) * Y - X * (y - Y)) <= (a + b) * (X * Y)).
  { unfold Rminus at 1. eapply Rle_trans; [apply Rabs_triang|]. rewrite Rabs_Ropp, !Rabs_mult, (Rabs_pos_eq X HX), (Rabs_pos_eq Y) by lra. assert (Rabs (x - X) * Y <= a * X * Y) by (apply Rmult_le_compat_r; lra). assert (X * Rabs (y - Y) <= X * (b * Y)) by (apply Rmult_le_compat_l; assumption). nra. }
  apply (Rmult_le_reg_r (y * Y)); [nra|]. rewrite Rmult_assoc, Rinv_l, Rmult_1_r by nra. eapply Rle_trans; [exact N|]. replace (2 * (a + b) * (X / Y) * (y * Y)) with (2 * (a + b) * X * y) by (field; lra).
  assert (0 <= (a + b) * X) by nra. nra.
Qed.
Definition E30 := bpow radix2 (-30).
Lemma E30_pos : 0 < E30 <= / 1000000000.
Proof. unfold E30. split; [apply bpow_gt_0|]. change (-30)%Z with (- Z.of_nat 30)%Z. rewrite bpow_neg. apply Rinv_le_contravar; [lra|]. rewrite (pow_IZR 2 30). apply IZR_le. cbn. lia. Qed.
Lemma u_E30 : 4 * u <= E30.
Proof. pose proof e52_u. assert (e52 <= / 2 * E30). { assert (bpow radix2 (-31) = / 2 * E30) by (unfold E30; change (-30)%Z with (-31 + 1)%Z; rewrite bpow_twice; lra). rewrite <- H0. apply bpow_le. lia. } lra. Qed.
(** rounding a number of normal size *)
Lemma near_b64 x : bpow radix2 (-1000) <= x -> near E30 (b64 x) x.
Proof.
  intro H. destruct (b64_eps x) as (e & h & He & Hh & ->). unfold near. replace (x * (1 + e) + h - x) with (x * e + h) by ring. pose proof (bpow_gt_0 radix2 (-1000)) as P0.
  assert (Et : eta <= u * bpow radix2 (-1000)). { unfold eta. apply Rle_trans with (bpow radix2 (-53 + -1000)); [pose proof (bpow_gt_0 radix2 (-1074)); pose proof (bpow_le radix2 (-1074) (-53 + -1000) ltac:(lia)); lra|]. rewrite bpow_plus. change (-53)%Z with (- Z.of_nat 53)%Z. rewrite bpow_neg. fold u. lra. }
  pose proof u_E30. pose proof u_small. eapply Rle_trans; [apply Rabs_triang|]. rewrite Rabs_mult, (Rabs_pos_eq x) by lra. nra.
Qed.

(** *** the last steps: the quotient, [1 - y], [max] and [round] *)
Definition tiny := bpow radix2 (-100).
Lemma tiny_pos : 0 < tiny <= E30. Proof. unfold tiny, E30. split; [apply bpow_gt_0|apply bpow_le; lia]. Qed.
Lemma b64_near_abs x : Rabs x <= 20000 -> Rabs (b64 x - x) <= 20001 * u.
Proof. intro H. destruct (b64_eps x) as (e & h & He & Hh & ->). replace (x * (1 + e) + h - x) with (x * e + h) by ring. pose proof eta_small. pose proof u_small. eapply Rle_trans; [apply Rabs_triang|]. rewrite Rabs_mult. assert (Rabs x * Rabs e <= 20000 * u) by (apply Rmult_le_compat; try apply Rabs_pos; lra). lra. Qed.
Lemma u_tiny : 100000 * u <= E30.
Proof.
  assert (bpow radix2 (-53) = u) by (change (-53)%Z with (- Z.of_nat 53)%Z; rewrite bpow_neg; reflexivity). rewrite <- H. apply Rle_trans with (bpow radix2 17 * bpow radix2 (-53)); [apply Rmult_le_compat_r; [apply bpow_ge_0|]; change (bpow radix2 17) with 131072; lra|].
  rewrite <- bpow_plus. apply bpow_le. lia.
Qed.
Lemma Rmax_lip a b r : Rabs (a - b) <= r -> Rabs (Rmax a 0 - Rmax b 0) <= r.
Proof. intro H. apply Rabs_le_inv in H. apply Rabs_le. unfold Rmax. repeat destruct (Rle_dec _ _); lra. Qed.
Lemma clip_finite y Y : 0 <= y -> 0 <= Y <= 2 -> Rabs (y - Y) <= 90 * E30 -> exists v, fclip (Fin y) = Fin v /\ Rabs (v - Rmax (1 - Y) 0) <= / 20000 + 100 * E30.
Proof.
  intros Hy HY D. pose proof E30_pos as EP. pose proof u_tiny as UT. pose proof u_small as US. cbn [fclip]. cbv zeta. assert (B1 : Rabs (1 - y) <= 20000) by (apply Rabs_le_inv in D; apply Rabs_le; lra).
  pose proof (b64_near_abs _ B1) as R1. set (r := b64 (1 - y)) in *. assert (R2 : Rabs (r - (1 - Y)) <= 91 * E30). { replace (r - (1 - Y)) with ((r - (1 - y)) + (Y - y)) by ring. eapply Rle_trans; [apply Rabs_triang|]. rewrite (Rabs_minus_sym Y y). lra. }
  assert (RX : r <= 1). { apply Rle_trans with (b64 1); [apply b64_le; lra|rewrite b64_1; lra]. }
  destruct (Rlt_dec r 0) as [N|N].
  - exists 0. split; [reflexivity|]. apply Rmax_lip in R2. unfold Rmax at 1 in R2. destruct (Rle_dec r 0); [lra|lra].
  - assert (R0 : 0 <= r) by lra. eexists. split; [reflexivity|].
    assert (B2 : Rabs (r * 10000) <= 20000) by (rewrite Rabs_pos_eq by nra; lra). pose proof (b64_near_abs _ B2) as R3. pose proof (Znearest_half (fun x => negb (Z.even x)) (b64 (r * 10000))) as R4. set (z := ZnearestE (b64 (r * 10000))) in *.
    assert (R5 : Rabs (IZR z / 10000 - r) <= / 20000 + 3 * u).
    { replace (IZR z / 10000 - r) with (((IZR z - b64 (r * 10000)) + (b64 (r * 10000) - r * 10000)) / 10000) by field. unfold Rdiv. rewrite Rabs_mult, (Rabs_pos_eq (/ 10000)) by lra. rewrite <- Rabs_Ropp in R4. replace (- (b64 (r * 10000) - IZR z)) with (IZR z - b64 (r * 10000)) in R4 by ring.
      pose proof (Rabs_triang (IZR z - b64 (r * 10000)) (b64 (r * 10000) - r * 10000)). lra. }
    assert (B3 : Rabs (IZR z / 10000) <= 20000) by (apply Rabs_le_inv in R5; apply Rabs_le; lra). pose proof (b64_near_abs _ B3) as R6. set (v := b64 (IZR z / 10000)) in *.
    apply Rmax_lip in R2. rewrite (Rmax_left r 0 R0) in R2. replace (v - Rmax (1 - Y) 0) with ((v - IZR z / 10000) + (IZR z / 10000 - r) + (r - Rmax (1 - Y) 0)) by ring.
    eapply Rle_trans; [apply Rabs_triang|]. eapply Rle_trans; [apply Rplus_le_compat_r, Rabs_triang|]. lra.
Qed.
Lemma clip_large y : 3 / 2 <= y -> fclip (Fin y) = Fin 0.
Proof.
  intro H. cbn [fclip]. cbv zeta. assert (b64 (1 - y) <= - / 2). { replace (- / 2) with (b64 (- / 2)); [apply b64_le; lra|]. apply b64_id. unfold double. apply generic_format_opp. replace (/ 2) with (bpow radix2 (-1)) by (cbn; lra). apply double_bpow. lia. }
  destruct (Rlt_dec _ 0); [reflexivity|lra].
Qed.
Lemma clip_quotient x Y : 0 <= x -> 0 <= Y -> Rabs (x - Y) <= 40 * E30 * Y + tiny -> exists v, fclip (fin x) = Fin v /\ Rabs (v - Rmax (1 - Y) 0) <= / 20000 + 100 * E30.
Proof.
  intros Hx HY D. pose proof E30_pos as EP. pose proof tiny_pos as TP. pose proof u_small as US. pose proof u_E30 as UE. pose proof eta_small as ES. destruct (b64_eps x) as (e & h & He & Hh & Eb). apply Rabs_le_inv in He, Hh, D as D'. pose proof (b64_pos x Hx) as Pb.
  destruct (Rle_lt_dec Y 2) as [L|L].
  - rewrite (fin_fits x 4) by (try lia; change (bpow radix2 4) with 16; nra). apply clip_finite; [exact Pb|lra|]. rewrite Eb. replace (x * (1 + e) + h - Y) with ((x - Y) + (x * e + h)) by ring. eapply Rle_trans; [apply Rabs_triang|]. assert (X3 : x <= 3) by nra. assert (Rabs (x * e + h) <= 4 * u).
    { eapply Rle_trans; [apply Rabs_triang|]. rewrite Rabs_mult, (Rabs_pos_eq x Hx). assert (x * Rabs e <= 3 * u) by (apply Rmult_le_compat; [lra|apply Rabs_pos|lra|apply Rabs_le; lra]). assert (Rabs h <= eta) by (apply Rabs_le; lra). lra. }
    assert (40 * E30 * Y <= 80 * E30) by nra. lra.
  - exists 0. split.
    + unfold fin. destruct (Rle_lt_dec _ _); [reflexivity|]. apply clip_large. rewrite Eb. nra.
    + rewrite Rmax_right by lra. rewrite Rminus_0_r, Rabs_R0. lra.
Qed.

Lemma frdist64_pos frames P Q P' Q' w calls : P <> [] -> Q <> [] -> Forall moderate_point P -> Forall moderate_point Q -> thinning 2 P Q P' Q' -> (length P' + length Q' - 1 <= frames)%nat ->
  frdist64 frames (map some_point P) (map some_point Q) = Ok (Fin w, calls) -> 0 <= w.
Proof.
  intros HP HQ MP MQ T F E. rewrite Forall_forall in MP, MQ. destruct P as [|a P]; [congruence|]. destruct Q as [|b Q]; [congruence|].
  assert (MM : forall R0 : list point, (forall a, In a R0 -> moderate_point a) -> moderate_curve (map some_point R0)) by (intros R0 H c Hc; apply in_map_iff in Hc as [x [<- Hx]]; exact (H x Hx)).
  assert (NM : forall a, ~ missing (some_point a)) by (intros c [H|H]; discriminate H).
  pose proof (thinned_some _ _ _ _ T) as TS.
  destruct (C91_distance_of_curves_with_missing_vertices_refuted frames (map some_point (a :: P)) (map some_point (b :: Q)) (some_point a) (some_point b) _ _ eq_refl eq_refl (NM a) (NM b) (MM _ MP) (MM _ MQ) TS ltac:(rewrite !map_length; exact F)) as (v & k & E' & [(l & (t & -> & _) & Hl) _]).
  rewrite E' in E. injection E as -> _. destruct (first_kept _ _ _ _ TS) as [KP KQ]. cbn [map hd_error] in KP, KQ.
  destruct (norm64_eps a b (MP a (or_introl eq_refl)) (MQ b (or_introl eq_refl))) as (x & Ex & X0 & _). apply Rle_trans with x; [exact X0|]. apply (Hl (O, O)); [left; reflexivity|]. exists (some_point a), (some_point b).
  split; [|split; [|exact Ex]]; cbn [fst snd nth_error].
  - rewrite <- KP. destruct (map some_point P'); reflexivity.
  - rewrite <- KQ. destruct (map some_point Q'); reflexivity.
Qed.
(** C147: the similarity of two contours, computed with doubles, is [1 - d / (sqrt (L1 L2) / sqrt 2)] or 0, to four decimals, where [d] is the discrete
    Frechet distance of the contours (after thinning) and [L1], [L2] are their lengths. *)
Theorem C147_similarity_in_doubles : forall mdist frames P Q P' Q', accurate_dist mdist -> Forall moderate_point P -> Forall moderate_point Q ->
  (Z.of_nat (segments P) <= 2 ^ 20)%Z -> (Z.of_nat (segments Q) <= 2 ^ 20)%Z ->
  bpow radix2 (-400) <= polyline_length P <= bpow radix2 400 -> bpow radix2 (-400) <= polyline_length Q <= bpow radix2 400 ->
  thinning 2 P Q P' Q' -> (length P' + length Q' - 1 <= frames)%nat ->
  exists d v, is_frechet P' Q' d /\ sim64 mdist frames (map some_point P) (map some_point Q) = Ok (Fin v) /\
    Rabs (v - Rmax (1 - d / (sqrt (polyline_length P * polyline_length Q) / sqrt 2)) 0) <= / 20000 + / 10 ^ 6.
Proof.
  intros mdist frames P Q P' Q' Hm MP MQ SP SQ LP LQ T F.
  pose proof E30_pos as EP. pose proof tiny_pos as TP. pose proof (bpow_gt_0 radix2 (-400)) as P4.
  assert (NE : forall R0 : list point, bpow radix2 (-400) <= polyline_length R0 -> R0 <> []) by (intros [|a R0] H; [cbn in H; lra|discriminate]).
  assert (LEN : forall R0, Forall moderate_point R0 -> (Z.of_nat (segments R0) <= 2 ^ 20)%Z -> bpow radix2 (-400) <= polyline_length R0 <= bpow radix2 400 -> exists v, farc mdist (map some_point R0) = Fin v /\ near E30 v (polyline_length R0)).
  { intros R0 MR SR LR. assert (N20 : INR (segments R0) <= bpow radix2 20) by (rewrite INR_IZR_INZ; change (bpow radix2 20) with (IZR (2 ^ 20)); apply IZR_le; exact SR). pose proof (pos_INR (segments R0)) as NP.
    destruct (C146_length_in_doubles mdist R0 Hm MR) as (v & Ev & _ & Hv). { eapply Rle_trans; [exact N20|apply bpow_le; lia]. } exists v. split; [exact Ev|]. unfold near. eapply Rle_trans; [exact Hv|].
    assert (A1 : INR (segments R0) * bpow radix2 (-51) <= bpow radix2 (-31)) by (change (-31)%Z with (20 + -51)%Z; rewrite bpow_plus; apply Rmult_le_compat_r; [apply bpow_ge_0|exact N20]).
    assert (A2 : INR (segments R0) * bpow radix2 (-1022) <= bpow radix2 (-400)). { apply Rle_trans with (bpow radix2 20 * bpow radix2 (-1022)); [apply Rmult_le_compat_r; [apply bpow_ge_0|exact N20]|]. rewrite <- bpow_plus. apply bpow_le. lia. }
    pose proof (bpow_ge_0 radix2 (-51)). pose proof (bpow_ge_0 radix2 (-1022)). assert (E2 : E30 = 2 * bpow radix2 (-31)) by (unfold E30; change (-30)%Z with (-31 + 1)%Z; apply bpow_twice). rewrite E2.
    apply Rle_trans with (bpow radix2 (-31) * (polyline_length R0 + polyline_length R0)); [|lra]. apply Rmult_le_compat; [nra|nra|exact A1|lra]. }
  destruct (LEN P MP SP LP) as (a & Ea & Na). destruct (LEN Q MQ SQ LQ) as (b & Eb & Nb). set (L1 := polyline_length P) in *. set (L2 := polyline_length Q) in *.
  destruct (C92_accuracy_of_the_distance frames P Q P' Q' (NE P (proj1 LP)) (NE Q (proj1 LQ)) MP MQ T F) as (d & w & calls & Hd & Ew & Hw).
  assert (D0 : 0 <= d). { destruct Hd as [(l & _ & (ij & _ & (p & q & _ & _ & ->)) & _) _]. rewrite <- distance_dist. apply distance_pos. }
  assert (W0 : 0 <= w) by (apply (frdist64_pos frames P Q P' Q' w calls); try assumption; [exact (NE P (proj1 LP))|exact (NE Q (proj1 LQ))]).
  exists d. unfold sim64. rewrite Ea, Eb, Ew. cbn [bind fmul].
  (* the product of the lengths *)
  assert (H8 : bpow radix2 (-800) <= L1 * L2 <= bpow radix2 800).
  { change (-800)%Z with (-400 + -400)%Z. change 800%Z with (400 + 400)%Z. rewrite !bpow_plus. split; apply Rmult_le_compat; lra. }
  pose proof (bpow_gt_0 radix2 (-800)) as P8. pose proof (bpow_gt_0 radix2 (-801)) as P81.
  assert (N1 : near (3 * E30) (a * b) (L1 * L2)) by (eapply near_weaken; [apply near_mul; [| | | |exact Na|exact Nb]; lra|nra|lra]).
  assert (B8 : bpow radix2 (-801) <= a * b <= bpow radix2 801).
  { unfold near in N1. apply Rabs_le_inv in N1. assert (bpow radix2 (-800) = 2 * bpow radix2 (-801)) by (change (-800)%Z with (-801 + 1)%Z; apply bpow_twice). assert (bpow radix2 801 = 2 * bpow radix2 800) by (change 801%Z with (800 + 1)%Z; apply bpow_twice). nra. }
  rewrite (fin_fits (a * b) 801) by (try lia; lra). cbn [fsqrt]. assert (N2 : near (5 * E30) (b64 (a * b)) (L1 * L2)).
  { eapply near_weaken; [eapply near_trans; [| |apply near_b64|exact N1]|nra|lra]; [lra|lra|]. eapply Rle_trans; [|apply B8]. apply bpow_le. lia. }
  pose proof (b64_ge_bpow _ (-801) ltac:(lia) (proj1 B8)) as C1. pose proof (b64_le_bpow _ 801 ltac:(lia) (proj2 B8)) as C2. set (q := b64 (a * b)) in *.
  (* its root *)
  assert (R8 : bpow radix2 (-401) <= sqrt q <= bpow radix2 401).
  { split; [apply sqrt_lower; [|apply bpow_ge_0]|apply sqrt_upper; [apply bpow_ge_0|]]; rewrite <- bpow_plus; [eapply Rle_trans; [|exact C1]|eapply Rle_trans; [exact C2|]]; apply bpow_le; lia. }
  pose proof (bpow_gt_0 radix2 (-401)) as P41. rewrite (fin_fits (sqrt q) 401) by (try lia; lra).
  set (S0 := sqrt (L1 * L2)) in *. assert (S8 : bpow radix2 (-400) <= S0). { apply sqrt_lower; [|apply bpow_ge_0]. rewrite <- bpow_plus. apply H8. }
  assert (N3 : near (5 * E30) (sqrt q) S0) by (apply near_sqrt; [lra|lra|exact N2]).
  assert (N4 : near (7 * E30) (b64 (sqrt q)) S0).
  { eapply near_weaken; [eapply near_trans; [| |apply near_b64|exact N3]|nra|lra]; [lra|lra|]. eapply Rle_trans; [|apply R8]. apply bpow_le. lia. }
  pose proof (b64_ge_bpow _ (-401) ltac:(lia) (proj1 R8)) as V1. pose proof (b64_le_bpow _ 401 ltac:(lia) (proj2 R8)) as V2. set (r := b64 (sqrt q)) in *.
  (* the mean length divided by the root of 2 *)
  pose proof sqrt2_bounds as [W1 W2]. rewrite (fin_fits (sqrt 2) 1) by (try lia; change (bpow radix2 1) with 2; lra).
  pose proof (b64_ge_bpow (sqrt 2) 0 ltac:(lia) W1) as X1. pose proof (b64_le_bpow (sqrt 2) 1 ltac:(lia) W2) as X2. change (bpow radix2 0) with 1 in X1. change (bpow radix2 1) with 2 in X2.
  assert (N5 : near E30 (b64 (sqrt 2)) (sqrt 2)) by (apply near_b64; eapply Rle_trans; [|exact W1]; change 1 with (bpow radix2 0); apply bpow_le; lia).
  set (g := b64 (sqrt 2)) in *. assert (N6 : near (16 * E30) (r / g) (S0 / sqrt 2)) by (eapply near_weaken; [apply (near_div (7 * E30) E30); try assumption; lra|lra|apply Rmult_le_pos; [lra|apply Rlt_le, Rinv_0_lt_compat; lra]]).
  set (D := S0 / sqrt 2) in *.
  assert (E41 : bpow radix2 (-400) = 2 * bpow radix2 (-401)) by (change (-400)%Z with (-401 + 1)%Z; apply bpow_twice). assert (E42 : bpow radix2 (-401) = 2 * bpow radix2 (-402)) by (change (-401)%Z with (-402 + 1)%Z; apply bpow_twice). pose proof (bpow_gt_0 radix2 (-402)) as P42. pose proof (bpow_gt_0 radix2 401) as P401.
  assert (D8 : bpow radix2 (-401) <= D). { unfold D. apply (Rmult_le_reg_r (sqrt 2)); [lra|]. unfold Rdiv. rewrite Rmult_assoc, Rinv_l, Rmult_1_r by lra. nra. }
  assert (Y8 : bpow radix2 (-402) <= r / g <= bpow radix2 401).
  { split; (apply (Rmult_le_reg_r g); [lra|]); unfold Rdiv; rewrite Rmult_assoc, Rinv_l, Rmult_1_r by lra; nra. }
  assert (DV : fdiv (Fin r) (Fin g) = Fin (b64 (r / g))) by (cbn [fdiv]; destruct (Req_EM_T g 0); [lra|]; apply (fin_fits _ 401); [lia|lra]). rewrite DV.
  assert (N7 : near (18 * E30) (b64 (r / g)) D).
  { eapply near_weaken; [eapply near_trans; [| |apply near_b64|exact N6]|nra|lra]; [lra|lra|]. eapply Rle_trans; [|apply Y8]. apply bpow_le. lia. }
  pose proof (b64_ge_bpow _ (-402) ltac:(lia) (proj1 Y8)) as T1. set (D' := b64 (r / g)) in *. cbn [fdiv]. destruct (Req_EM_T D' 0) as [Z|_]; [lra|].
  (* the quotient *)
  assert (Q0 : 0 <= w / D') by (apply Rmult_le_pos; [exact W0|apply Rlt_le, Rinv_0_lt_compat; lra]). assert (Y0 : 0 <= d / D) by (apply Rmult_le_pos; [exact D0|apply Rlt_le, Rinv_0_lt_compat; lra]).
  assert (ERR : Rabs (w / D' - d / D) <= 40 * E30 * (d / D) + tiny).
  { unfold near in N7. apply Rabs_le_inv in N7 as N7'. assert (HD : D / 2 <= D') by nra. replace (w / D' - d / D) with ((w - d) / D' + (d / D) * ((D - D') / D')) by (field; lra). eapply Rle_trans; [apply Rabs_triang|].
    assert (I0 : 0 < / D') by (apply Rinv_0_lt_compat; lra). assert (I1 : D * / D' <= 2) by (apply (Rmult_le_reg_r D'); [lra|]; rewrite Rmult_assoc, Rinv_l by lra; lra).
    assert (I2 : / D' <= bpow radix2 402). { replace (bpow radix2 402) with (/ bpow radix2 (-402)) by (rewrite <- bpow_opp; reflexivity). apply Rinv_le_contravar; [lra|exact T1]. }
    assert (G1 : Rabs ((w - d) / D') <= 2 * E30 * (d / D) + tiny).
    { unfold Rdiv at 1. rewrite Rabs_mult, (Rabs_pos_eq (/ D')) by lra. apply Rle_trans with ((d / 2 ^ 51 + bpow radix2 (-535)) * / D'); [apply Rmult_le_compat_r; lra|]. rewrite Rmult_plus_distr_r. apply Rplus_le_compat.
      - replace (d / 2 ^ 51 * / D') with ((d / D) * (/ 2 ^ 51) * (D * / D')) by (generalize (pow_lt 2 51 ltac:(lra)); generalize (2 ^ 51); intros; field; repeat split; lra).
        assert (/ 2 ^ 51 <= E30). { replace (/ 2 ^ 51) with (bpow radix2 (-51)) by (change (-51)%Z with (- Z.of_nat 51)%Z; apply bpow_neg). apply bpow_le. lia. } assert (0 < / 2 ^ 51) by (apply Rinv_0_lt_compat, pow_lt; lra).
        assert (/ 2 ^ 51 * (D * / D') <= E30 * 2) by (apply Rmult_le_compat; [lra|apply Rmult_le_pos; lra|lra|lra]). rewrite Rmult_assoc. replace (2 * E30 * (d / D)) with (d / D * (E30 * 2)) by ring. apply Rmult_le_compat_l; assumption.
      - apply Rle_trans with (bpow radix2 (-535) * bpow radix2 402); [apply Rmult_le_compat_l; [apply bpow_ge_0|exact I2]|]. rewrite <- bpow_plus. unfold tiny. apply bpow_le. lia. }
    assert (G2 : Rabs (d / D * ((D - D') / D')) <= 36 * E30 * (d / D)).
    { rewrite Rabs_mult, (Rabs_pos_eq (d / D) Y0). unfold Rdiv at 2. rewrite Rabs_mult, (Rabs_pos_eq (/ D')), Rabs_minus_sym by lra.
      assert (Rabs (D' - D) * / D' <= 18 * E30 * 2). { apply Rle_trans with (18 * E30 * D * / D'); [apply Rmult_le_compat_r; lra|]. rewrite Rmult_assoc. apply Rmult_le_compat_l; lra. }
      replace (36 * E30 * (d / D)) with (d / D * (18 * E30 * 2)) by ring. apply Rmult_le_compat_l; assumption. }
    assert (0 <= E30 * (d / D)) by (apply Rmult_le_pos; lra). lra. }
  destruct (clip_quotient _ _ Q0 Y0 ERR) as (v & Ev & Hv). exists v. split; [exact Hd|]. rewrite Ev. split; [reflexivity|]. unfold D, S0 in Hv. eapply Rle_trans; [exact Hv|]. assert (/ 10 ^ 6 = / 1000000) by (f_equal; ring). lra.
Qed.
Print Assumptions C147_similarity_in_doubles.

Example C147_case : exists d v, is_frechet [(0, 0); (3, 4); (3, 5)] [(0, 1); (3, 5)] d /\ sim64 mdist64 100 (map some_point [(0, 0); (3, 4); (3, 5)]) (map some_point [(0, 1); (3, 5)]) = Ok (Fin v) /\
  Rabs (v - Rmax (1 - d / (sqrt (polyline_length [(0, 0); (3, 4); (3, 5)] * polyline_length [(0, 1); (3, 5)]) / sqrt 2)) 0) <= / 20000 + / 10 ^ 6.
Proof.
  assert (L1 : polyline_length [(0, 0); (3, 4); (3, 5)] = 6) by apply C146_case. assert (L2 : polyline_length [(0, 1); (3, 5)] = 5).
  { cbn [polyline_length]. unfold distance. cbn [fst snd]. replace ((0 - 3) ^ 2 + (1 - 5) ^ 2) with (5 * 5) by ring. rewrite sqrt_square by lra. lra. }
  assert (B : bpow radix2 (-400) <= 1 /\ 8 <= bpow radix2 400) by (split; [change 1 with (bpow radix2 0)|change 8 with (bpow radix2 3)]; apply bpow_le; lia).
  apply C147_similarity_in_doubles.
  - exact mdist64_accurate.
  - apply C146_case.
  - apply Forall_forall. intros a [<-|[<-|[]]]; split; apply moderate_small; cbn; lia.
  - cbn; lia.
  - cbn; lia.
  - rewrite L1. lra.
  - rewrite L2. lra.
  - apply thinning_done. left. cbn. lia.
  - cbn. lia.
Qed.

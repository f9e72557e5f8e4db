From Coq Require Import Reals Lra Lia ZArith Psatz.
From Flocq Require Import Core Relative Plus_error Sterbenz.
From Verif Require Import M_Printer S_Double L_Printer.
Open Scope R_scope.

Local Instance p53 : Prec_gt_0 53. Proof. reflexivity. Qed.
Local Instance vexp : Valid_exp (FLT_exp (-1074) 53). Proof. apply FLT_exp_valid. reflexivity. Qed.
Lemma b64_double x : double (b64 x). Proof. apply generic_format_round; [apply vexp|apply valid_rnd_N]. Qed.
Lemma b64_id x : double x -> b64 x = x. Proof. apply round_generic, valid_rnd_N. Qed.
Lemma double_opp x : double x -> double (- x). Proof. apply generic_format_opp. Qed.
Lemma double_0 : double 0. Proof. apply generic_format_0. Qed.
Lemma b64_0 : b64 0 = 0. Proof. apply b64_id, double_0. Qed.
Lemma b64_1 : b64 1 = 1. Proof. change 1 with (IZR 1). apply b64_int. cbn. lia. Qed.
Lemma b64_opp x : b64 (- x) = - b64 x. Proof. apply round_NE_opp. Qed.
Definition u := / 2 ^ 53.
Definition eta := / 2 * bpow radix2 (-1074).
Lemma u_bpow : / 2 * bpow radix2 (Z.opp 53 + 1) = u.
Proof. unfold u. change (Z.opp 53 + 1)%Z with (- Z.of_nat 52)%Z. rewrite bpow_neg. cbn [pow]. field. Qed.
Lemma u_small : 0 < u <= / 1000000.
Proof. unfold u. split; [apply Rinv_0_lt_compat, pow_lt; lra|]. apply Rinv_le_contravar; [lra|]. change 1000000 with (IZR 1000000). rewrite (pow_IZR 2 53). apply IZR_le. cbn. lia. Qed.
Lemma eta_small : 0 < eta <= u.
Proof.
  unfold eta. split; [apply Rmult_lt_0_compat; [lra|apply bpow_gt_0]|]. rewrite <- u_bpow. apply Rmult_le_compat_l; [lra|]. apply bpow_le. lia.
Qed.
Lemma b64_eps x : exists e h, Rabs e <= u /\ Rabs h <= eta /\ b64 x = x * (1 + e) + h.
Proof. destruct (error_N_FLT radix2 (-1074) 53 eq_refl (fun z => negb (Z.even z)) x) as (e & h & A & B & _ & D). rewrite u_bpow in A. exists e, h. auto. Qed.
Lemma add_eps x y : double x -> double y -> exists e, Rabs e <= u /\ b64 (x + y) = (x + y) * (1 + e).
Proof.
  intros Hx Hy. destruct (FLT_plus_error_N_ex radix2 (-1074) 53 (fun z => negb (Z.even z)) x y Hx Hy) as (e & A & B). exists e. split; [|exact B].
  eapply Rle_trans; [exact A|]. replace (u_ro radix2 53) with u by (unfold u_ro; rewrite <- u_bpow; reflexivity). pose proof u_small as [P _]. apply (Rmult_le_reg_r (1 + u)); [lra|]. unfold Rdiv. rewrite Rmult_assoc, Rinv_l by lra. nra.
Qed.
Lemma sub_eps x y : double x -> double y -> exists e, Rabs e <= u /\ b64 (x - y) = (x - y) * (1 + e).
Proof. intros Hx Hy. apply add_eps; [exact Hx|apply double_opp, Hy]. Qed.

Lemma div_nonneg a b : 0 <= a -> 0 < b -> 0 <= a / b. Proof. intros A B. apply Rmult_le_pos; [exact A|apply Rlt_le, Rinv_0_lt_compat, B]. Qed.
Section Interpolation.
Variables zp zq l xp xq : R.
Hypothesis Dzp : double zp. Hypothesis Dzq : double zq. Hypothesis Dl : double l. Hypothesis Dxp : double xp. Hypothesis Dxq : double xq.
Hypothesis Hz : zp <= l < zq \/ zq <= l < zp.
Definition part := div64 (sub64 l zp) (sub64 zq zp).
Definition inter := add64 (mul64 part (sub64 xq xp)) xp.
Let exact := (l - zp) / (zq - zp).
Lemma Hne : zq - zp <> 0. Proof. lra. Qed.
Lemma exact_range : 0 <= exact <= 1.
Proof using Hz.
  unfold exact. destruct Hz as [[A B]|[A B]].
  - split; [apply div_nonneg; lra|]. apply (Rmult_le_reg_r (zq - zp)); [lra|]. unfold Rdiv. rewrite Rmult_assoc, Rinv_l by lra. lra.
  - replace ((l - zp) / (zq - zp)) with ((zp - l) / (zp - zq)) by (field; lra). split; [apply div_nonneg; lra|]. apply (Rmult_le_reg_r (zp - zq)); [lra|]. unfold Rdiv. rewrite Rmult_assoc, Rinv_l by lra. lra.
Qed.
Lemma part_range : 0 <= part <= 1.
Proof using Hz Dzp Dzq.
  unfold part, div64, sub64.
  assert (N : b64 (zq - zp) <> 0). { unfold b64. apply round_plus_neq_0; try typeclasses eauto; [exact Dzq|apply double_opp, Dzp|exact Hne]. }
  assert (0 <= b64 (l - zp) / b64 (zq - zp) <= 1).
  { destruct Hz as [[A B]|[A B]].
    - assert (X : 0 <= b64 (l - zp) <= b64 (zq - zp)) by (rewrite <- b64_0 at 1; split; apply b64_le; lra). assert (Y : 0 < b64 (zq - zp)) by lra.
      split; [apply div_nonneg; lra|]. apply (Rmult_le_reg_r (b64 (zq - zp))); [lra|]. unfold Rdiv. rewrite Rmult_assoc, Rinv_l by lra. lra.
    - assert (X : b64 (zq - zp) <= b64 (l - zp) <= 0) by (rewrite <- b64_0 at 1; split; apply b64_le; lra). assert (Y : b64 (zq - zp) < 0) by lra.
      replace (b64 (l - zp) / b64 (zq - zp)) with (- b64 (l - zp) / - b64 (zq - zp)) by (field; lra).
      split; [apply div_nonneg; lra|]. apply (Rmult_le_reg_r (- b64 (zq - zp))); [lra|]. unfold Rdiv. rewrite Rmult_assoc, Rinv_l by lra. lra. }
  set (r := b64 (l - zp) / b64 (zq - zp)) in *. clearbody r. split; [rewrite <- b64_0|rewrite <- b64_1]; apply b64_le; lra.
Qed.
(** The vertex is between the first point and what the computation gives for the second one *)
Lemma inter_within : within xp (b64 (xp + b64 (xq - xp))) inter.
Proof using Hz Dzp Dzq Dxp.
  pose proof part_range as [P0 P1]. unfold inter, add64, mul64, sub64, within. set (d := b64 (xq - xp)). assert (Dd : double d) by apply b64_double.
  assert (Id : b64 d = d) by (apply b64_id, Dd). assert (Ix : b64 xp = xp) by (apply b64_id, Dxp). destruct (Rle_or_lt 0 d) as [S|S].
  - left. assert (X1 : b64 0 <= b64 (part * d)) by (apply b64_le; nra). assert (X2 : b64 (part * d) <= b64 d) by (apply b64_le; nra). rewrite b64_0 in X1. rewrite Id in X2.
    split; [|apply b64_le; lra]. rewrite <- Ix at 1. apply b64_le. lra.
  - right. assert (X1 : b64 (part * d) <= b64 0) by (apply b64_le; nra). assert (X2 : b64 d <= b64 (part * d)) by (apply b64_le; nra). rewrite b64_0 in X1. rewrite Id in X2.
    split; [apply b64_le; lra|]. rewrite <- Ix at 2. apply b64_le. lra.
Qed.
Lemma inter_on_side : double (xq - xp) -> within xp xq inter.
Proof using Hz Dzp Dzq Dxp Dxq. intro D. pose proof inter_within as W. rewrite (b64_id _ D) in W. replace (xp + (xq - xp)) with xq in W by ring. rewrite (b64_id xq Dxq) in W. exact W. Qed.
Lemma inter_same : xq = xp -> inter = xp.
Proof using Dxp. intro E. unfold inter, add64, mul64, sub64. rewrite E. replace (xp - xp) with 0 by ring. rewrite b64_0, Rmult_0_r, b64_0, Rplus_0_l. apply b64_id, Dxp. Qed.
Lemma part_eps : Rabs (part - exact) <= 5 * u.
Proof using Hz Dzp Dzq Dl.
  destruct (sub_eps l zp Dl Dzp) as (e1 & E1 & F1). destruct (sub_eps zq zp Dzq Dzp) as (e2 & E2 & F2). unfold part, div64, sub64. rewrite F1, F2.
  destruct (b64_eps ((l - zp) * (1 + e1) / ((zq - zp) * (1 + e2)))) as (e3 & h & E3 & H3 & ->).
  pose proof u_small as [U0 U1]. pose proof eta_small as [T0 T1]. apply Rabs_le_inv in E1, E2, E3, H3. pose proof exact_range as [X0 X1].
  replace ((l - zp) * (1 + e1) / ((zq - zp) * (1 + e2))) with (exact * ((1 + e1) / (1 + e2))) by (unfold exact; field; split; [lra|apply Hne]).
  set (w := (1 + e1) / (1 + e2)). assert (Hw : w * (1 + e2) = 1 + e1) by (unfold w; field; lra). assert (W : 1 - 3 * u <= w <= 1 + 3 * u) by (split; nra).
  clearbody w. assert (V : - (4 * u) <= w * (1 + e3) - 1 <= 4 * u) by (split; nra). replace (exact * w * (1 + e3) + h - exact) with (exact * (w * (1 + e3) - 1) + h) by ring.
  set (v := w * (1 + e3) - 1) in *. clearbody v. apply Rabs_le. clear Hw W. split; nra.
Qed.
Lemma inter_eps : Rabs (inter - (xp + exact * (xq - xp))) <= Rmax (Rabs xp) (Rabs xq) / 2 ^ 48 + bpow radix2 (-1073).
Proof using Hz Dzp Dzq Dl Dxp Dxq.
  pose proof part_eps as P. pose proof exact_range as [X0 X1]. pose proof u_small as [U0 U1]. pose proof eta_small as [T0 T1].
  destruct (sub_eps xq xp Dxq Dxp) as (e4 & E4 & F4). unfold inter, add64, mul64. set (t := part) in *. unfold sub64. rewrite F4.
  destruct (b64_eps (t * ((xq - xp) * (1 + e4)))) as (e5 & h & E5 & H5 & F5). destruct (add_eps (b64 (t * ((xq - xp) * (1 + e4)))) xp (b64_double _) Dxp) as (e6 & E6 & ->). rewrite F5.
  set (M := Rmax (Rabs xp) (Rabs xq)). assert (M1 : - M <= xp <= M) by (apply Rabs_le_inv, Rmax_l). assert (M2 : - M <= xq <= M) by (apply Rabs_le_inv, Rmax_r).
  apply Rabs_le_inv in P, E4, E5, H5, E6. set (d := xq - xp). assert (D : - (2 * M) <= d <= 2 * M) by (unfold d; lra).
  assert (W : - (3 * u) <= (1 + e4) * (1 + e5) - 1 <= 3 * u) by (split; nra). set (w := (1 + e4) * (1 + e5) - 1) in *.
  replace (t * (d * (1 + e4)) * (1 + e5) + h) with (t * (1 + w) * d + h) by (unfold w; ring). clearbody w t M. 
  set (g := t * (1 + w) - exact). assert (G : - (9 * u) <= g <= 9 * u) by (unfold g; split; nra).
  replace (t * (1 + w) * d + h) with (exact * d + g * d + h) by (unfold g; ring). clearbody g.
  assert (Q : - M <= xp + exact * d <= M) by (unfold d; split; nra). set (q := xp + exact * d) in *.
  replace ((exact * d + g * d + h + xp) * (1 + e6) - q) with (g * d + h + e6 * (q + g * d + h)) by (unfold q; ring). clearbody q.
  assert (K : - (18 * u * M) <= g * d <= 18 * u * M) by (clear - G D U0; split; nra). set (k := g * d) in *. clearbody k.
  assert (0 <= M) by lra. assert (M / 2 ^ 48 = 32 * u * M) as -> by (unfold u; field).
  assert (bpow radix2 (-1073) = 4 * eta) as -> by (unfold eta; change (-1073)%Z with (-1074 + 1)%Z; rewrite bpow_plus; cbn [bpow]; simpl (IZR (Z.pow_pos radix2 1)); lra).
  assert (L : - (2 * M + eta) <= q + k + h <= 2 * M + eta) by (split; nra). set (y := q + k + h) in *. clearbody y.
  assert (O : - (u * (2 * M + eta)) <= e6 * y <= u * (2 * M + eta)) by (clear - E6 L U0 T0 H; split; nra).
  apply Rabs_le. split; nra.
Qed.
End Interpolation.

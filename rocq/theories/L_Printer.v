From Coq Require Import Reals Lra Lia.
From Flocq Require Import Core Relative.
From Coq Require Import DecimalString DecimalNat DecimalFacts.
From Verif Require Import M_Base M_Printer.
Open Scope R_scope.

Lemma b64_le x y : x <= y -> b64 x <= b64 y. Proof. apply round_le; [apply FLT_exp_valid; reflexivity|apply valid_rnd_N]. Qed.
Lemma b64_int m : (Z.abs m < 2 ^ 53)%Z -> b64 (IZR m) = IZR m.
Proof.
  intro H. apply round_generic; [apply valid_rnd_N|]. replace (IZR m) with (F2R (Float radix2 m 0)) by (unfold F2R; cbn [Fnum Fexp bpow]; ring).
  apply generic_format_FLT. exists (Float radix2 m 0); [reflexivity|exact H|cbn; lia].
Qed.
Lemma bpow_neg n : bpow radix2 (- Z.of_nat n) = / 2 ^ n.
Proof. rewrite bpow_opp. f_equal. rewrite <- IZR_Zpower by lia. change 2 with (IZR 2). rewrite pow_IZR. reflexivity. Qed.
Lemma b64_err x : / 2 ^ 100 <= x -> exists e, Rabs e <= / 2 ^ 53 /\ b64 x = x * (1 + e).
Proof.
  intro H. assert (P : 0 < / 2 ^ 100) by (apply Rinv_0_lt_compat, pow_lt; lra). destruct (relative_error_N_FLT_ex radix2 (-1074) 53 eq_refl (fun z => negb (Z.even z)) x) as [e [He E]].
  - rewrite Rabs_pos_eq by lra. refine (Rle_trans _ _ _ _ H). rewrite <- bpow_neg. apply bpow_le. discriminate.
  - exists e. split; [|exact E]. refine (Rle_trans _ _ _ He _). change (Z.opp 53 + 1)%Z with (- Z.of_nat 52)%Z. rewrite bpow_neg, <- Rinv_mult. right. reflexivity.
Qed.

Section P.
Variable maxv i : Z.
Hypothesis Hi : (0 <= i < maxv)%Z.
Hypothesis Hm : (maxv < 2 ^ 53)%Z.
Lemma posm : 0 < IZR maxv. Proof. apply IZR_lt. lia. Qed.
Lemma posi : 1 <= IZR (i + 1) <= IZR maxv. Proof. split; apply IZR_le; lia. Qed.
Lemma ratio_bounds : / 2 ^ 53 <= IZR (i + 1) / IZR maxv <= 1.
Proof.
  pose proof posm. pose proof posi as [A B]. assert (C : IZR maxv <= 2 ^ 53) by (change 2 with (IZR 2); rewrite pow_IZR; apply IZR_le; lia). assert (D : 0 < 2 ^ 53) by (apply pow_lt; lra). split.
  - apply Rmult_le_reg_r with (IZR maxv); [exact H|]. unfold Rdiv. rewrite Rmult_assoc, Rinv_l by lra. apply Rmult_le_reg_l with (2 ^ 53); [exact D|]. rewrite <- Rmult_assoc, Rinv_r by lra. nra.
  - apply Rmult_le_reg_r with (IZR maxv); [exact H|]. unfold Rdiv. rewrite Rmult_assoc, Rinv_l by lra. lra.
Qed.
Lemma inverse_ratio : IZR maxv / IZR (1 * (i + 1)) = / (IZR (i + 1) / IZR maxv).
Proof. pose proof posm. pose proof posi. rewrite Z.mul_1_l. field. lra. Qed.
Lemma r_ge_1 : 1 <= b64 (IZR maxv / IZR (1 * (i + 1))).
Proof.
  rewrite <- (b64_int 1) at 1 by (cbn; lia). apply b64_le. rewrite Z.mul_1_l. pose proof posm. pose proof posi as [A B]. apply Rmult_le_reg_r with (IZR (i + 1)); [lra|]. unfold Rdiv. rewrite Rmult_assoc, Rinv_l by lra. lra.
Qed.
Lemma progress_range : (0 <= progress maxv 1 i <= 10)%Z.
Proof.
  unfold progress, py_int. pose proof r_ge_1 as R. set (r := b64 (IZR maxv / IZR (1 * (i + 1)))) in *. assert (Q : 0 <= 10 / r <= 10).
  { split; [apply Rlt_le, Rdiv_lt_0_compat; lra|]. apply Rmult_le_reg_r with r; [lra|]. unfold Rdiv. rewrite Rmult_assoc, Rinv_l by lra. lra. }
  destruct Q as [Q1 Q2]. apply b64_le in Q1, Q2. rewrite (b64_int 0) in Q1 by (cbn; lia). rewrite (b64_int 10) in Q2 by (cbn; lia). apply Ztrunc_le in Q1, Q2. rewrite Ztrunc_IZR in Q1, Q2. auto.
Qed.
Lemma percent_range : 0 <= percent maxv i <= 100.
Proof.
  unfold percent. pose proof ratio_bounds as [A B]. assert (P : 0 < / 2 ^ 53) by (apply Rinv_0_lt_compat, pow_lt; lra). assert (A' : 0 <= IZR (i + 1) / IZR maxv) by lra. apply b64_le in A', B. rewrite (b64_int 0) in A' by (cbn; lia). rewrite (b64_int 1) in B by (cbn; lia).
  split; [apply Rle_trans with (b64 0); [rewrite (b64_int 0) by (cbn; lia); lra|apply b64_le; lra]|apply Rle_trans with (b64 100); [apply b64_le; lra|rewrite (b64_int 100) by (cbn; lia); lra]].
Qed.
(** accuracy *)
Lemma eps_small : 0 < / 2 ^ 53 <= / 1000000000000000 /\ / 1000000000000000 <= 1 / 1000.
Proof.
  assert (IZR 1000000000000000 <= 2 ^ 53) by (change 2 with (IZR 2); rewrite pow_IZR; apply IZR_le; cbn; lia). split; [split; [apply Rinv_0_lt_compat, pow_lt; lra|apply Rinv_le_contravar; lra]|lra].
Qed.
Lemma tiny_le : / 2 ^ 100 <= / 2 ^ 53 /\ / 2 ^ 100 <= 1.
Proof.
  assert (A : 2 ^ 53 <= 2 ^ 100) by (apply Rle_pow; [lra|lia]). assert (B : 0 < 2 ^ 53) by (apply pow_lt; lra). assert (C : / 2 ^ 100 <= / 2 ^ 53) by (apply Rinv_le_contravar; lra). split; [exact C|]. pose proof eps_small. lra.
Qed.
Lemma percent_accurate : Rabs (percent maxv i - 100 * (IZR (i + 1) / IZR maxv)) <= / 1000000000000.
Proof.
  unfold percent. pose proof ratio_bounds as [A B]. set (t := IZR (i + 1) / IZR maxv) in *. pose proof tiny_le as [T1 T2]. pose proof eps_small as [[E0 E1] E2].
  destruct (b64_err t ltac:(lra)) as [e [He ->]]. apply Rabs_le_inv in He.
  assert (P : / 2 ^ 53 / 2 <= t * (1 + e)) by nra.
  destruct (b64_err (t * (1 + e) * 100)) as [f [Hf ->]]. { lra. } apply Rabs_le_inv in Hf. 
  replace (t * (1 + e) * 100 * (1 + f) - 100 * t) with (100 * (t * (e + f + e * f))) by ring. assert (S : Rabs (e + f + e * f) <= 3 * / 1000000000000000) by (apply Rabs_le; nra).
  rewrite Rabs_mult, (Rabs_pos_eq 100), Rabs_mult, (Rabs_pos_eq t) by lra. pose proof (Rabs_pos (e + f + e * f)). nra.
Qed.
Lemma progress_accurate : let t := 10 * (IZR (i + 1) / IZR maxv) in t - 1 - / 1000000000000 < IZR (progress maxv 1 i) <= t + / 1000000000000.
Proof.
  intro u. unfold progress, py_int. rewrite inverse_ratio. pose proof ratio_bounds as [A B]. unfold u. set (t := IZR (i + 1) / IZR maxv) in *. pose proof tiny_le as [T1 T2]. pose proof eps_small as [[E0 E1] E2].
  assert (I : 1 <= / t) by (rewrite <- Rinv_1; apply Rinv_le_contravar; lra).
  destruct (b64_err (/ t) ltac:(lra)) as [e [He ->]]. apply Rabs_le_inv in He.
  assert (Eq : 10 / (/ t * (1 + e)) = 10 * t * / (1 + e)) by (field; lra). rewrite Eq.
  assert (V : 1 - 2 * / 2 ^ 53 <= / (1 + e) <= 1 + 2 * / 2 ^ 53).
  { split; (apply Rmult_le_reg_r with (1 + e); [lra|]; rewrite Rinv_l by lra; nra). }
  set (w := / (1 + e)) in *. destruct (b64_err (10 * t * w)) as [f [Hf ->]]. { nra. } apply Rabs_le_inv in Hf.
  assert (Y : Rabs (10 * t * w * (1 + f) - 10 * t) <= / 1000000000000).
  { replace (10 * t * w * (1 + f) - 10 * t) with (10 * (t * ((w - 1) + f + (w - 1) * f))) by ring. assert (S : Rabs ((w - 1) + f + (w - 1) * f) <= 4 * / 1000000000000000) by (apply Rabs_le; nra).
    rewrite Rabs_mult, (Rabs_pos_eq 10), Rabs_mult, (Rabs_pos_eq t) by lra. pose proof (Rabs_pos ((w - 1) + f + (w - 1) * f)). nra. }
  assert (N : 0 <= 10 * t * w * (1 + f)) by (apply Rmult_le_pos; [apply Rmult_le_pos|]; nra). set (y := 10 * t * w * (1 + f)) in *. apply Rabs_le_inv in Y. rewrite Ztrunc_floor by exact N. pose proof (Zfloor_lb y). pose proof (Zfloor_ub y). lra.
Qed.
End P.
Lemma progress_mono maxv i i' : (0 <= i <= i')%Z -> (i' < maxv)%Z -> (maxv < 2 ^ 53)%Z -> (progress maxv 1 i <= progress maxv 1 i')%Z.
Proof.
  intros H1 H2 H3. unfold progress, py_int. apply Ztrunc_le, b64_le. pose proof (r_ge_1 maxv i' ltac:(lia)) as R. assert (b64 (IZR maxv / IZR (1 * (i' + 1))) <= b64 (IZR maxv / IZR (1 * (i + 1)))).
  { apply b64_le. rewrite !Z.mul_1_l. unfold Rdiv. apply Rmult_le_compat_l; [apply IZR_le; lia|]. apply Rinv_le_contravar; [apply IZR_lt; lia|apply IZR_le; lia]. }
  unfold Rdiv. apply Rmult_le_compat_l; [lra|]. apply Rinv_le_contravar; lra.
Qed.
Lemma percent_mono maxv i i' : (0 <= i <= i')%Z -> (i' < maxv)%Z -> percent maxv i <= percent maxv i'.
Proof.
  intros H1 H2. unfold percent. apply b64_le. apply Rmult_le_compat_r; [lra|]. apply b64_le. unfold Rdiv. apply Rmult_le_compat_r; [|apply IZR_le; lia]. apply Rlt_le, Rinv_0_lt_compat, IZR_lt. lia.
Qed.
Lemma progress_last maxv : (0 < maxv)%Z -> progress maxv 1 (maxv - 1) = 10%Z.
Proof.
  intro H. unfold progress, py_int. rewrite Z.mul_1_l, Z.sub_add. assert (0 < IZR maxv) by (apply IZR_lt; lia). replace (IZR maxv / IZR maxv) with 1 by (field; lra). rewrite (b64_int 1) by (cbn; lia). replace (10 / 1) with 10 by field.
  rewrite (b64_int 10) by (cbn; lia). apply Ztrunc_IZR.
Qed.
Lemma percent_last maxv : (0 < maxv)%Z -> percent maxv (maxv - 1) = 100.
Proof.
  intro H. unfold percent. rewrite Z.sub_add. assert (0 < IZR maxv) by (apply IZR_lt; lia). replace (IZR maxv / IZR maxv) with 1 by (field; lra). rewrite (b64_int 1) by (cbn; lia). rewrite Rmult_1_l. apply (b64_int 100). cbn. lia.
Qed.
Lemma py_round_le x y : x <= y -> (py_round x <= py_round y)%Z. Proof. intro H. apply (@Zrnd_le ZnearestE _), H. Qed.
Lemma py_round_int n : py_round (IZR n) = n. Proof. apply (@Zrnd_IZR ZnearestE _). Qed.
Lemma py_round_half x : Rabs (IZR (py_round x) - x) <= 1 / 2. Proof. rewrite Rabs_minus_sym. refine (Rle_trans _ _ _ (Znearest_half _ x) _). lra. Qed.
Lemma repeat_length a n : String.length (repeat_char a n) = n. Proof. induction n as [|n IH]; cbn; auto. Qed.

(** *** versions *)
Lemma shown_normal n : Decimal.unorm (Nat.to_uint n) = Nat.to_uint n.
Proof. rewrite <- DecimalNat.Unsigned.to_of, DecimalNat.Unsigned.of_to. reflexivity. Qed.
Lemma shown_value n : Nat.of_uint (Nat.to_uint n) = n. Proof. apply DecimalNat.Unsigned.of_to. Qed.
Lemma nzhead_not_0 d d' : Decimal.nzhead d <> Decimal.D0 d'.
Proof. induction d; cbn; try discriminate. exact IHd. Qed.
Lemma leading_zero n d : Nat.to_uint n = Decimal.D0 d -> n = 0%nat.
Proof.
  intro E. pose proof (shown_normal n) as N. rewrite E in N. unfold Decimal.unorm in N. cbn [Decimal.nzhead] in N. rewrite <- (shown_value n), E. destruct (Decimal.nzhead d) eqn:Q.
  - injection N as <-. reflexivity.
  - exfalso. exact (nzhead_not_0 d _ Q).
  - discriminate. - discriminate. - discriminate. - discriminate. - discriminate. - discriminate. - discriminate. - discriminate. - discriminate.
Qed.
Lemma shown_not_nil n : Nat.to_uint n <> Decimal.Nil.
Proof. intro E. pose proof (shown_normal n) as N. rewrite E in N. discriminate. Qed.
Lemma not_below_0 n : str_lt (show n) "0" = false.
Proof. unfold show. pose proof (shown_not_nil n). destruct (Nat.to_uint n) as [|d|d|d|d|d|d|d|d|d|d]; [contradiction|..]; cbn; try reflexivity. destruct (NilEmpty.string_of_uint d); reflexivity. Qed.
Lemma patch_not_below n : tuple_lt [show n] ["0"%string] = false.
Proof. cbn [tuple_lt]. rewrite not_below_0. cbn [orb]. rewrite andb_false_r. reflexivity. Qed.
Lemma minor_not_below n : (2 <= n)%nat -> str_lt (show n) "10" = false.
Proof.
  intro H. unfold show. pose proof (shown_not_nil n) as N. pose proof (leading_zero n) as Z. pose proof (shown_value n) as V. destruct (Nat.to_uint n) as [|d|d|d|d|d|d|d|d|d|d]; [contradiction| | |cbn; reflexivity..].
  - exfalso. specialize (Z d eq_refl). lia.
  - destruct d as [|d|d|d|d|d|d|d|d|d|d]; [exfalso; cbn in V; lia| |cbn; reflexivity..]. cbn. destruct (NilEmpty.string_of_uint d); reflexivity.
Qed.

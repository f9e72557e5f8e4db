(** C146: the length of a contour in double arithmetic *)
From Coq Require Import Reals Lra Lia Psatz ZArith.
From Flocq Require Import Core.
From Verif Require Import M_Base M_Printer M_Frechet M_FrechetFloat S_Double S_Frechet S_FrechetFloat S_Length L_Printer L_Double L_Frechet L_Frechet2 L_Frechet3 L_FrechetFloat L_FrechetFloat2 P_FrechetFloat.
Open Scope R_scope.

Definition e52 := bpow radix2 (-52).
Definition t22 := bpow radix2 (-1022).
Lemma e52_u : e52 = 2 * u.
Proof. unfold e52. rewrite <- u_bpow. change (Z.opp 53 + 1)%Z with (-52)%Z. lra. Qed.
Lemma e52_pos : 0 < e52. Proof. apply bpow_gt_0. Qed.
Lemma t22_pos : 0 < t22. Proof. apply bpow_gt_0. Qed.
Lemma h_split : bpow radix2 (-1074) = e52 * t22. Proof. unfold e52, t22. rewrite <- bpow_plus. reflexivity. Qed.
Lemma distance_dist a b : distance a b = dist a b.
Proof. unfold distance, dist, Rsqr. f_equal. ring. Qed.
Lemma distance_pos a b : 0 <= distance a b. Proof. apply sqrt_pos. Qed.
Lemma distance_bound a b : moderate_point a -> moderate_point b -> distance a b <= bpow radix2 512.
Proof.
  intros [A1 A2] [B1 B2]. pose proof (diff_bound _ _ A1 B1) as X. pose proof (diff_bound _ _ A2 B2) as Y. unfold distance. apply sqrt_upper; [apply bpow_ge_0|].
  assert (E : bpow radix2 512 * bpow radix2 512 = 4 * (bpow radix2 511 * bpow radix2 511)) by (change 512%Z with (511 + 1)%Z; rewrite bpow_twice; ring). rewrite E.
  apply Rabs_le_inv in X, Y. nra.
Qed.
Lemma growth n : INR n * e52 <= / 2 -> (1 + e52) ^ n - 1 <= 2 * INR n * e52.
Proof.
  pose proof e52_pos as E. induction n as [|n IH]; intro H; [cbn; lra|]. rewrite S_INR in *. cbn [pow]. assert (H' : INR n * e52 <= / 2) by lra. specialize (IH H'). pose proof (pos_INR n). nra.
Qed.
Lemma growth_mono n m : (n <= m)%nat -> (1 + e52) ^ n <= (1 + e52) ^ m.
Proof. intro H. apply Rle_pow; [pose proof e52_pos; lra|exact H]. Qed.
Lemma growth_1 n : 1 <= (1 + e52) ^ n.
Proof. apply pow_R1_Rle. pose proof e52_pos; lra. Qed.
Lemma length_cons a b P : polyline_length (a :: b :: P) = distance a b + polyline_length (b :: P). Proof. reflexivity. Qed.
Lemma length_pos P : 0 <= polyline_length P.
Proof. induction P as [|a [|b P] IH]; [cbn; lra|cbn; lra|]. rewrite length_cons. pose proof (distance_pos a b). lra. Qed.

Section Sum.
Variable mdist : fpoint -> fpoint -> fl.
Hypothesis Hm : accurate_dist mdist.
Lemma farc_error : forall P k A L, Forall moderate_point P -> double A -> 0 <= A -> 0 <= L <= INR k * bpow radix2 512 ->
  Rabs (A - L) <= ((1 + e52) ^ k - 1) * (L + INR k * t22) -> INR (k + segments P) <= bpow radix2 51 ->
  exists v, farc_from mdist (Fin A) (map some_point P) = Fin v /\ double v /\ 0 <= v /\
    Rabs (v - (L + polyline_length P)) <= ((1 + e52) ^ (k + segments P) - 1) * (L + polyline_length P + INR (k + segments P) * t22).
Proof using Hm.
  induction P as [|a [|b P] IH]; intros k A L HP DA PA HL HE HN.
  - exists A. cbn [map farc_from polyline_length segments length Nat.sub]. rewrite Nat.add_0_r, Rplus_0_r. auto.
  - exists A. cbn [map farc_from polyline_length segments length Nat.sub]. rewrite Nat.add_0_r, Rplus_0_r. auto.
  - inversion HP as [|? ? Ma HP']; subst. inversion HP' as [|? ? Mb _]; subst. destruct (Hm a b Ma Mb) as (d & Ed & Dd & Pd & Err). rewrite h_split in Err. fold e52 in Err.
    change (map some_point (a :: b :: P)) with (some_point a :: some_point b :: map some_point P). cbn [farc_from]. rewrite Ed. cbn [fadd].
    pose proof (distance_pos a b) as Pl. pose proof (distance_bound a b Ma Mb) as Bl. set (l := distance a b) in *. pose proof e52_pos as Ee. pose proof t22_pos as Tp. pose proof e52_u as Eu. pose proof u_small as Us.
    assert (SG : segments (a :: b :: P) = S (segments (b :: P))) by (unfold segments; cbn [length]; lia). rewrite SG in HN |- *.
    assert (K1 : INR k + 1 <= bpow radix2 51) by (rewrite <- S_INR; eapply Rle_trans; [|exact HN]; apply le_INR; lia).
    pose proof (pos_INR k) as Kp.
    assert (E51 : bpow radix2 51 * e52 = / 2) by (unfold e52; rewrite <- bpow_plus; change (51 + -52)%Z with (-1)%Z; cbn; lra).
    assert (G : (1 + e52) ^ k - 1 <= 1). { eapply Rle_trans; [apply growth|]; nra. }
    pose proof (growth_1 k) as G1.
    assert (T1 : t22 <= 1) by (change 1 with (bpow radix2 0); apply bpow_le; lia).
    assert (B512 : 1 <= bpow radix2 512) by (change 1 with (bpow radix2 0); apply bpow_le; lia).
    set (B := bpow radix2 512) in *. set (M := L + INR k * t22) in *.
    assert (HM : 0 <= M <= 2 * (INR k * B)) by (unfold M; split; nra).
    assert (UA : A <= 4 * (INR k * B)). { apply Rabs_le_inv in HE. assert (((1 + e52) ^ k - 1) * M <= 1 * M) by (apply Rmult_le_compat_r; lra). nra. }
    assert (Ud : d <= 4 * B). { apply Rabs_le_inv in Err. assert (l * e52 <= B * 1) by (apply Rmult_le_compat; lra). assert (e52 * t22 <= 1) by nra. nra. }
    assert (SF : 0 <= A + d <= bpow radix2 600).
    { split; [lra|]. apply Rle_trans with (4 * (bpow radix2 51 * B)); [nra|]. unfold B. rewrite <- bpow_plus. change 4 with (bpow radix2 2). rewrite <- bpow_plus. apply bpow_le. lia. }
    rewrite (fin_fits _ 600) by (try lia; exact SF).
    assert (STEP : Rabs (b64 (A + d) - (L + l)) <= ((1 + e52) ^ S k - 1) * (L + l + INR (S k) * t22)).
    { rewrite S_INR. replace (L + l + (INR k + 1) * t22) with (M + (l + t22)) by (unfold M; ring). cbn [pow].
      destruct k as [|k'].
      - cbn [pow] in *. assert (A = L). { replace ((1 - 1) * M) with 0 in HE by ring. apply Rabs_le_inv in HE. lra. } subst A. assert (L = 0) by (cbn in HL; lra). subst L. rewrite Rplus_0_l, (b64_id d Dd), Rplus_0_l. unfold M in *. cbn [INR] in *. replace ((1 + e52) * 1 - 1) with e52 by ring. eapply Rle_trans; [exact Err|]. nra.
      - destruct (add_eps A d DA Dd) as (e & He & ->). set (c := (1 + e52) ^ S k') in *.
        assert (C1 : e52 <= c - 1). { unfold c. pose proof (growth_mono 1 (S k') ltac:(lia)) as W. cbn [pow] in W |- *. lra. }
        replace ((A + d) * (1 + e) - (L + l)) with (((A - L) + (d - l)) * (1 + e) + (L + l) * e) by ring.
        eapply Rle_trans; [apply Rabs_triang|]. rewrite !Rabs_mult.
        assert (X1 : Rabs ((A - L) + (d - l)) <= (c - 1) * (M + (l + t22))).
        { eapply Rle_trans; [apply Rabs_triang|]. assert (l * e52 + e52 * t22 <= (c - 1) * (l + t22)) by (replace (l * e52 + e52 * t22) with (e52 * (l + t22)) by ring; apply Rmult_le_compat_r; lra). lra. }
        assert (X2 : Rabs (1 + e) <= 1 + u) by (eapply Rle_trans; [apply Rabs_triang|]; rewrite Rabs_R1; lra).
        assert (X3 : Rabs (L + l) <= M + (l + t22)) by (rewrite Rabs_pos_eq by lra; unfold M; nra).
        assert (Y1 : Rabs ((A - L) + (d - l)) * Rabs (1 + e) <= (c - 1) * (M + (l + t22)) * (1 + u)) by (apply Rmult_le_compat; [apply Rabs_pos|apply Rabs_pos|exact X1|exact X2]).
        assert (Y2 : Rabs (L + l) * Rabs e <= (M + (l + t22)) * u) by (apply Rmult_le_compat; [apply Rabs_pos|apply Rabs_pos|exact X3|exact He]).
        set (W := M + (l + t22)) in *. assert (0 <= W) by (unfold W; lra). rewrite Eu. assert (0 <= c * W) by (apply Rmult_le_pos; lra).
        apply Rle_trans with ((c - 1) * W * (1 + u) + W * u); [lra|]. replace (((1 + 2 * u) * c - 1) * W) with ((c - 1) * W * (1 + u) + W * u + c * W * u) by ring. nra. }
    destruct (IH (S k) (b64 (A + d)) (L + l) HP') as (v & Ev & Dv & Pv & Hv).
    + apply b64_double.
    + apply b64_pos, SF.
    + rewrite S_INR. lra.
    + exact STEP.
    + replace (S k + segments (b :: P))%nat with (k + S (segments (b :: P)))%nat by lia. exact HN.
    + exists v. split; [exact Ev|]. split; [exact Dv|]. split; [exact Pv|]. rewrite length_cons. fold l. replace (S k + segments (b :: P))%nat with (k + S (segments (b :: P)))%nat in Hv by lia. rewrite <- (Rplus_assoc L l) . exact Hv.
Qed.
End Sum.

(** C146: the length of a contour of doubles of size up to 2^510, computed with doubles, differs from the length of the polyline by at most 2^-51 of it for
    each segment (and 2^-1022 per segment in place of a length that is smaller still).  It is a number, not negative. *)
Theorem C146_length_in_doubles : forall mdist P, accurate_dist mdist -> Forall moderate_point P -> INR (segments P) <= bpow radix2 51 ->
  exists v, farc mdist (map some_point P) = Fin v /\ 0 <= v /\
    Rabs (v - polyline_length P) <= INR (segments P) * bpow radix2 (-51) * (polyline_length P + INR (segments P) * bpow radix2 (-1022)).
Proof.
  intros mdist P Hm HP HN. destruct (farc_error mdist Hm P 0 0 0 HP double_0 (Rle_refl 0)) as (v & Ev & _ & Pv & Hv); [cbn; lra|cbn; rewrite Rminus_0_r, Rabs_R0; lra|exact HN|].
  exists v. split; [exact Ev|]. split; [exact Pv|]. cbn [Nat.add] in Hv. rewrite Rplus_0_l in Hv. eapply Rle_trans; [exact Hv|]. fold t22. apply Rmult_le_compat_r.
  - pose proof (length_pos P). pose proof (pos_INR (segments P)). pose proof t22_pos. nra.
  - eapply Rle_trans; [apply growth|].
    + apply Rle_trans with (bpow radix2 51 * e52); [apply Rmult_le_compat_r; [apply Rlt_le, e52_pos|exact HN]|]. unfold e52. rewrite <- bpow_plus. change (51 + -52)%Z with (-1)%Z. cbn. lra.
    + assert (E : bpow radix2 (-51) = 2 * e52) by (unfold e52; change (-51)%Z with (-52 + 1)%Z; apply bpow_twice). rewrite E. lra.
Qed.
Print Assumptions C146_length_in_doubles.

(** A distance that is rounded correctly is accurate, and a polyline of three vertices meets the hypotheses. *)
Lemma mdist64_accurate : accurate_dist mdist64.
Proof.
  intros a b Ma Mb. pose proof (distance_bound a b Ma Mb) as B. pose proof (distance_pos a b) as P. rewrite distance_dist in *. exists (b64 (dist a b)). unfold mdist64, some_point. split.
  - replace (dist (fst a, snd a) (fst b, snd b)) with (dist a b) by (destruct a, b; reflexivity). apply (fin_fits _ 512); [lia|lra].
  - split; [apply b64_double|]. split; [apply b64_pos, P|]. destruct (b64_eps (dist a b)) as (e & h & He & Hh & ->). replace (dist a b * (1 + e) + h - dist a b) with (dist a b * e + h) by ring.
    eapply Rle_trans; [apply Rabs_triang|]. rewrite Rabs_mult, (Rabs_pos_eq _ P). fold e52. rewrite e52_u. assert (eta <= bpow radix2 (-1074)) by (unfold eta; pose proof (bpow_gt_0 radix2 (-1074)); lra). pose proof u_small. nra.
Qed.
Example C146_case : accurate_dist mdist64 /\ Forall moderate_point [(0, 0); (3, 4); (3, 5)] /\ INR (segments [(0, 0); (3, 4); (3, 5)]) <= bpow radix2 51 /\ polyline_length [(0, 0); (3, 4); (3, 5)] = 6.
Proof.
  split; [exact mdist64_accurate|]. split.
  - apply Forall_forall. intros a [<-|[<-|[<-|[]]]]; split; apply moderate_small; cbn; lia.
  - split; [unfold segments; cbn [length Nat.sub INR]; change (1 + 1) with (bpow radix2 1); apply bpow_le; lia|]. cbn [polyline_length]. unfold distance. cbn [fst snd].
    replace ((0 - 3) ^ 2 + (0 - 4) ^ 2) with (5 * 5) by ring. replace ((3 - 3) ^ 2 + (4 - 5) ^ 2) with (1 * 1) by ring. rewrite !sqrt_square by lra. lra.
Qed.

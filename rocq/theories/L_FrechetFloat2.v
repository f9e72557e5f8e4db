(** The distance of two points in double arithmetic. *)
From Coq Require Import Reals Lra Lia Psatz ZArith.
From Flocq Require Import Core.
From Verif Require Import M_Base M_Printer M_Frechet M_FrechetFloat S_Double S_Frechet S_FrechetFloat L_Printer L_Double L_Frechet L_FrechetFloat.
Open Scope R_scope.

Definition number (v : fl) : Prop := v = Inf \/ exists x, v = Fin x /\ 0 <= x.
Lemma b64_pos x : 0 <= x -> 0 <= b64 x. Proof. intro H. rewrite <- b64_0. apply b64_le, H. Qed.
Lemma fin_number x : 0 <= x -> number (fin x).
Proof. intro H. unfold fin. destruct (Rle_lt_dec _ _); [left; reflexivity|right; exists (b64 x); split; [reflexivity|apply b64_pos, H]]. Qed.
Lemma fmul_self v : number v -> number (fmul v v).
Proof. intros [->|[x [-> H]]]; [left; reflexivity|]. apply fin_number. nra. Qed.
Lemma fadd_number a b : number a -> number b -> number (fadd a b).
Proof. intros [->|[x [-> H]]] [->|[y [-> K]]]; try (left; reflexivity). apply fin_number. lra. Qed.
Lemma fsqrt_number a : number a -> number (fsqrt a).
Proof. intros [->|[x [-> H]]]; [left; reflexivity|]. apply fin_number, sqrt_pos. Qed.
Lemma number_big v : number v -> big v.
Proof. intros [->|[x [-> H]]]; [reflexivity|]. unfold big, flt. destruct (Rlt_dec (-1) x); [reflexivity|lra]. Qed.
Lemma number_not_nan v : number v -> v <> Nan.
Proof. intros [->|[x [-> H]]]; discriminate. Qed.
Lemma fdiff_sym a b : fdiff a b = fdiff b a.
Proof. unfold fdiff. destruct a, b; try reflexivity. rewrite Rabs_minus_sym. reflexivity. Qed.
Lemma norm64_sym a b : norm64 a b = norm64 b a.
Proof. unfold norm64. rewrite (fdiff_sym (fst a)), (fdiff_sym (snd a)). reflexivity. Qed.
Lemma norm64_missing a b : missing a \/ missing b -> norm64 a b = Nan.
Proof.
  unfold missing, norm64, fdiff. destruct a as [[x|] [y|]], b as [[x'|] [y'|]]; cbn [fst snd]; try reflexivity; try (destruct (fin _); reflexivity); try (destruct (fmul _ _); reflexivity).
  intros [[H|H]|[H|H]]; discriminate H.
Qed.
Lemma norm64_number a b : ~ missing a -> ~ missing b -> number (norm64 a b).
Proof.
  unfold missing, norm64, fdiff. destruct a as [[x|] [y|]], b as [[x'|] [y'|]]; cbn [fst snd]; try tauto. intros _ _.
  apply fsqrt_number, fadd_number; apply fmul_self, fin_number, Rabs_pos.
Qed.
Lemma missing_dec a : {missing a} + {~ missing a}.
Proof. unfold missing. destruct a as [[x|] [y|]]; cbn; auto. right. intros [H|H]; discriminate. Qed.
Lemma norm64_num a b : norm64 a b = Nan \/ big (norm64 a b).
Proof.
  destruct (missing_dec a) as [A|A]; [left; apply norm64_missing; auto|]. destruct (missing_dec b) as [B|B]; [left; apply norm64_missing; auto|].
  right. apply number_big, norm64_number; assumption.
Qed.
Lemma norm64_nan a b : norm64 a b = Nan <-> missing a \/ missing b.
Proof.
  split; [|apply norm64_missing]. intro H. destruct (missing_dec a) as [A|A]; [auto|]. destruct (missing_dec b) as [B|B]; [auto|]. elim (number_not_nan _ (norm64_number a b A B) H).
Qed.

(** *** accuracy *)
Lemma double_bpow e : (-1074 <= e)%Z -> double (bpow radix2 e).
Proof. intro H. apply generic_format_bpow. unfold FLT_exp. lia. Qed.
Lemma b64_le_bpow x e : (-1074 <= e)%Z -> x <= bpow radix2 e -> b64 x <= bpow radix2 e.
Proof. intros H L. rewrite <- (b64_id (bpow radix2 e)) by (apply double_bpow, H). apply b64_le, L. Qed.
Lemma fin_fits x e : (-1074 <= e < 1024)%Z -> 0 <= x <= bpow radix2 e -> fin x = Fin (b64 x).
Proof.
  intros E [P L]. unfold fin. destruct (Rle_lt_dec _ _) as [X|X]; [|reflexivity]. exfalso. rewrite Rabs_pos_eq in X by (apply b64_pos, P).
  pose proof (b64_le_bpow x e (proj1 E) L). pose proof (bpow_lt radix2 e 1024 (proj2 E)). lra.
Qed.
Lemma bpow_twice e : bpow radix2 (e + 1) = 2 * bpow radix2 e.
Proof. rewrite bpow_plus. change (bpow radix2 1) with 2. ring. Qed.
Lemma diff_eps x y : double x -> double y -> exists e, Rabs e <= u /\ b64 (Rabs (x - y)) = Rabs (x - y) * (1 + e).
Proof.
  intros A B. destruct (Rcase_abs (x - y)) as [C|C].
  - rewrite (Rabs_left _ C). destruct (sub_eps y x B A) as [e [E1 E2]]. exists e. split; [exact E1|]. replace (- (x - y)) with (y - x) by ring. exact E2.
  - rewrite (Rabs_right _ C). apply sub_eps; assumption.
Qed.
Lemma diff_bound x y : moderate x -> moderate y -> Rabs (x - y) <= bpow radix2 511.
Proof.
  intros [_ A] [_ B]. change 511%Z with (510 + 1)%Z. rewrite bpow_twice. apply Rabs_le_inv in A, B. apply Rabs_le. lra.
Qed.
Definition tiny := bpow radix2 (-536).
Lemma tiny_sq : tiny * tiny = 8 * eta.
Proof. unfold tiny, eta. rewrite <- bpow_plus. change (-536 + -536)%Z with (-1072)%Z. change (-1072)%Z with (-1074 + 1 + 1)%Z. rewrite !bpow_twice. lra. Qed.
Lemma tiny_pos : 0 < tiny. Proof. apply bpow_gt_0. Qed.
Lemma eta_tiny : eta <= u * tiny.
Proof.
  unfold eta, tiny. rewrite <- u_bpow. rewrite Rmult_assoc, <- bpow_plus. apply Rmult_le_compat_l; [lra|]. apply bpow_le. cbn. lia.
Qed.
(** one square *)
Lemma square_eps x y : moderate x -> moderate y -> let s := fmul (fin (Rabs (x - y))) (fin (Rabs (x - y))) in
  exists v, s = Fin v /\ double v /\ 0 <= v <= bpow radix2 1022 /\ (x - y)² * ((1 - u) * (1 - u) * (1 - u)) - eta <= v <= (x - y)² * ((1 + u) * (1 + u) * (1 + u)) + eta.
Proof.
  intros Mx My. cbv zeta. pose proof (diff_bound x y Mx My) as D. pose proof (Rabs_pos (x - y)) as P.
  rewrite (fin_fits _ 511) by (try lia; lra). cbn [fmul].
  assert (D2 : 0 <= b64 (Rabs (x - y)) <= bpow radix2 511) by (split; [apply b64_pos, P|apply b64_le_bpow; [lia|exact D]]).
  set (t := b64 (Rabs (x - y))) in *.
  assert (T : 0 <= t * t <= bpow radix2 1022). { split; [nra|]. change 1022%Z with (511 + 511)%Z. rewrite bpow_plus. nra. }
  rewrite (fin_fits _ 1022) by (try lia; exact T). exists (b64 (t * t)). split; [reflexivity|]. split; [apply b64_double|].
  split; [split; [apply b64_pos; lra|apply b64_le_bpow; [lia|lra]]|].
  destruct (diff_eps x y (proj1 Mx) (proj1 My)) as [e [E1 E2]]. fold t in E2. destruct (b64_eps (t * t)) as [f [h [F1 [F2 F3]]]]. rewrite F3, E2.
  apply Rabs_le_inv in E1, F1, F2. pose proof u_small as U.
  assert (S : Rabs (x - y) * (1 + e) * (Rabs (x - y) * (1 + e)) = (x - y)² * ((1 + e) * (1 + e))). { rewrite (Rsqr_abs (x - y)). unfold Rsqr. ring. }
  rewrite S. pose proof (Rle_0_sqr (x - y)) as Q. set (z := (x - y)²) in *.
  assert (A1 : (1 - u) * (1 - u) * (1 - u) <= (1 + e) * (1 + e) * (1 + f)) by (apply Rmult_le_compat; nra).
  assert (A2 : (1 + e) * (1 + e) * (1 + f) <= (1 + u) * (1 + u) * (1 + u)) by (apply Rmult_le_compat; nra).
  split; [assert (z * ((1 - u) * (1 - u) * (1 - u)) <= z * ((1 + e) * (1 + e) * (1 + f))) by (apply Rmult_le_compat_l; assumption)|assert (z * ((1 + e) * (1 + e) * (1 + f)) <= z * ((1 + u) * (1 + u) * (1 + u))) by (apply Rmult_le_compat_l; assumption)]; lra.
Qed.
Lemma sqrt_upper s X : 0 <= X -> s <= X * X -> sqrt s <= X.
Proof. intros P L. rewrite <- (sqrt_square X P). apply sqrt_le_1_alt, L. Qed.
Lemma sqrt_lower s X : X * X <= s -> 0 <= X -> X <= sqrt s.
Proof. intros L P. rewrite <- (sqrt_square X P) at 1. apply sqrt_le_1_alt, L. Qed.
Lemma norm64_eps a b : moderate_point a -> moderate_point b ->
  exists v, norm64 (some_point a) (some_point b) = Fin v /\ 0 <= v /\ Rabs (v - dist a b) <= dist a b / 2 ^ 51 + bpow radix2 (-535).
Proof.
  intros [A1 A2] [B1 B2]. unfold norm64, some_point, fdiff. cbn [fst snd].
  destruct (square_eps _ _ A1 B1) as [sx [Ex [Dx [Bx Lx]]]]. destruct (square_eps _ _ A2 B2) as [sy [Ey [Dy [By Ly]]]]. cbv zeta in *. rewrite Ex, Ey. cbn [fadd].
  assert (T : 0 <= sx + sy <= bpow radix2 1023) by (change 1023%Z with (1022 + 1)%Z; rewrite bpow_twice; lra).
  rewrite (fin_fits _ 1023) by (try lia; exact T). cbn [fsqrt].
  destruct (add_eps sx sy Dx Dy) as [e [E1 E2]]. apply Rabs_le_inv in E1.
  assert (S1 : 0 <= b64 (sx + sy) <= bpow radix2 1023) by (split; [apply b64_pos; lra|apply b64_le_bpow; [lia|lra]]).
  set (s := b64 (sx + sy)) in *. pose proof (sqrt_pos s) as SP.
  assert (S2 : sqrt s <= bpow radix2 512).
  { apply sqrt_upper; [apply bpow_ge_0|]. rewrite <- bpow_plus. eapply Rle_trans; [apply S1|]. apply bpow_le. lia. }
  rewrite (fin_fits _ 512) by (try lia; lra). exists (b64 (sqrt s)). split; [reflexivity|]. split; [apply b64_pos, SP|].
  destruct (b64_eps (sqrt s)) as [f [h [F1 [F2 F3]]]]. apply Rabs_le_inv in F1, F2. rewrite F3.
  set (w := dist a b). assert (W : w * w = (fst a - fst b)² + (snd a - snd b)²). { unfold w, dist. apply sqrt_sqrt. apply Rplus_le_le_0_compat; apply Rle_0_sqr. }
  assert (Wp : 0 <= w) by apply dist_nonneg. pose proof u_small as U. pose proof eta_small as Eta. pose proof tiny_pos as Tp. pose proof tiny_sq as Tq. pose proof eta_tiny as Et.
  set (p := (1 + u) * (1 + u)). set (m := (1 - u) * (1 - u)).
  assert (UP : sqrt s <= w * p + tiny).
  { apply sqrt_upper; [unfold p; nra|]. assert (s <= w * w * (p * p) + 4 * eta).
    { rewrite E2. assert (sx + sy <= w * w * (p * (1 + u)) + 2 * eta) by (rewrite W; unfold p; lra). assert ((sx + sy) * (1 + e) <= (sx + sy) * (1 + u)) by (apply Rmult_le_compat_l; lra).
      assert ((sx + sy) * (1 + u) <= (w * w * (p * (1 + u)) + 2 * eta) * (1 + u)) by (apply Rmult_le_compat_r; lra). unfold p in *. nra. }
    assert (0 <= w * p) by (unfold p; nra). nra. }
  assert (DN : w * m - tiny <= sqrt s).
  { destruct (Rle_lt_dec (w * m) tiny) as [X|X]; [lra|]. apply sqrt_lower; [|lra]. assert (w * w * (m * m) - 4 * eta <= s).
    { rewrite E2. assert (w * w * (m * (1 - u)) - 2 * eta <= sx + sy) by (rewrite W; unfold m; lra). assert ((sx + sy) * (1 - u) <= (sx + sy) * (1 + e)) by (apply Rmult_le_compat_l; lra).
      assert ((w * w * (m * (1 - u)) - 2 * eta) * (1 - u) <= (sx + sy) * (1 - u)) by (apply Rmult_le_compat_r; lra). unfold m in *. nra. }
    assert ((w * m - tiny) * (w * m - tiny) <= w * m * (w * m) - tiny * tiny) by nra. nra. }
  assert (H2 : bpow radix2 (-535) = 2 * tiny) by (change (-535)%Z with (-536 + 1)%Z; apply bpow_twice). rewrite H2.
  assert (H3 : / 2 ^ 51 = 4 * u) by (unfold u; cbn [pow]; field). unfold Rdiv. rewrite H3.
  assert (X1 : sqrt s * (1 + f) + h <= (w * p + tiny) * (1 + u) + eta). { assert (sqrt s * (1 + f) <= sqrt s * (1 + u)) by (apply Rmult_le_compat_l; lra). assert (sqrt s * (1 + u) <= (w * p + tiny) * (1 + u)) by (apply Rmult_le_compat_r; lra). lra. }
  assert (X2 : (w * m - tiny) * (1 - u) - eta <= sqrt s * (1 + f) + h). { assert (sqrt s * (1 - u) <= sqrt s * (1 + f)) by (apply Rmult_le_compat_l; lra). assert ((w * m - tiny) * (1 - u) <= sqrt s * (1 - u)) by (apply Rmult_le_compat_r; lra). lra. }
  assert (Y1 : p * (1 + u) <= 1 + 4 * u) by (unfold p; nra). assert (Y2 : 1 - 4 * u <= m * (1 - u)) by (unfold m; nra).
  assert (Z1 : w * (p * (1 + u)) <= w * (1 + 4 * u)) by (apply Rmult_le_compat_l; assumption). assert (Z2 : w * (1 - 4 * u) <= w * (m * (1 - u))) by (apply Rmult_le_compat_l; assumption).
  apply Rabs_le. split; nra.
Qed.

(** The lines of a level inside one cell of a grid with axes. *)
From Coq Require Import Reals Lra Lia Bool Psatz.
From Verif Require Import M_Base M_Extract S_Lines2 S_Cross.
Open Scope R_scope.

Section Rect.
Variable c : place -> R * R * R.
Variables X Y : bool -> R.
Hypothesis HX : forall p, lon c p = X (fst p).
Hypothesis HY : forall p, lat c p = Y (snd p).
Hypothesis NX : X false <> X true.
Hypothesis NY : Y false <> Y true.
Notation V := (val c).
(** A point on the rim of the cell, with the value interpolated along the side *)
Definition rim (p : R * R) (w : R) : Prop :=
  exists a b t, next_to a b /\ 0 <= t <= 1 /\ p = (lon c a + t * (lon c b - lon c a), lat c a + t * (lat c b - lat c a)) /\ w = V a + t * (V b - V a).
Lemma met_rim level p q u : met c level p q u -> rim u level.
Proof.
  intros (N & C & t & E & ->). exists p, q, t. split; [exact N|]. split; [|split; [reflexivity|symmetry; exact E]]. destruct C as [[A B]|[A B]]; split.
  - apply Rnot_lt_le. intro T. nra.
  - apply Rnot_lt_le. intro T. nra.
  - apply Rnot_lt_le. intro T. nra.
  - apply Rnot_lt_le. intro T. nra.
Qed.
Lemma met_sym level p q u : met c level p q u -> met c level q p u.
Proof.
  intros (N & C & t & E & ->). split; [unfold next_to in *; intuition congruence|]. split; [tauto|]. exists (1 - t). split; [lra|]. f_equal; ring.
Qed.

(** Coordinates from corner (i, j) *)
Section Corner.
Variables i j : bool.
Notation d1 := (X (negb i) - X i).
Notation d2 := (Y (negb j) - Y j).
Notation vK := (V (i, j)). Notation vP := (V (negb i, j)). Notation vQ := (V (i, negb j)). Notation vO := (V (negb i, negb j)).
Lemma d1_nz : d1 <> 0. Proof. destruct i; cbn; lra. Qed.
Lemma d2_nz : d2 <> 0. Proof. destruct j; cbn; lra. Qed.
Lemma rim_local p w : rim p w -> exists xi eta, 0 <= xi <= 1 /\ 0 <= eta <= 1 /\ p = (X i + xi * d1, Y j + eta * d2) /\
  ((eta = 0 /\ w = vK + xi * (vP - vK)) \/ (xi = 0 /\ w = vK + eta * (vQ - vK)) \/ (eta = 1 /\ w = vQ + xi * (vO - vQ)) \/ (xi = 1 /\ w = vP + eta * (vO - vP))).
Proof.
  intros ([a1 a2] & [b1 b2] & t & N & T & -> & ->). rewrite !HX, !HY. cbn [fst snd].
  assert (C : (b1 = a1 /\ b2 = negb a2) \/ (b1 = negb a1 /\ b2 = a2)) by (destruct N as [[A B]|[A B]]; cbn [fst snd] in *; destruct a1, a2, b1, b2; cbn; tauto).
  destruct C as [[-> ->]|[-> ->]].
  - (* along the latitude *) exists (if Bool.eqb a1 i then 0 else 1), (if Bool.eqb a2 j then t else 1 - t).
    split; [destruct (Bool.eqb a1 i); lra|]. split; [destruct (Bool.eqb a2 j); lra|]. split; [f_equal; destruct a1, a2, i, j; cbn; ring|].
    destruct a1, a2, i, j; cbn; first [right; left; split; [reflexivity|ring]|right; right; right; split; [reflexivity|ring]].
  - exists (if Bool.eqb a1 i then t else 1 - t), (if Bool.eqb a2 j then 0 else 1).
    split; [destruct (Bool.eqb a1 i); lra|]. split; [destruct (Bool.eqb a2 j); lra|]. split; [f_equal; destruct a1, a2, i, j; cbn; ring|].
    destruct a1, a2, i, j; cbn; first [left; split; [reflexivity|ring]|right; right; left; split; [reflexivity|ring]].
Qed.
End Corner.

Definition affine (k : R * R * R) (p : R * R) : R := fst (fst k) + snd (fst k) * fst p + snd k * snd p.
Definition saddle (level : R) : Prop := forall a b, next_to a b -> (V a > level <-> V b <= level).
(** A line h = 0 through u and v, and where the rim of the cell lies with respect to it *)
Definition divides (level : R) (u v : R * R) (h : R * R -> R) : Prop :=
  h u = 0 /\ h v = 0 /\
  (forall p w, rim p w -> h p = 0 -> w = level) /\
  ((saddle level -> mean c > level) -> forall p w, rim p w -> w > level -> h p > 0) /\
  ((saddle level -> mean c <= level) -> forall p w, rim p w -> w < level -> h p < 0) /\
  ((forall p, rim p level -> h p <= 0) \/ (forall p, rim p level -> h p >= 0)) /\
  ((forall a, V a <> level) -> forall p w, rim p w -> h p = 0 -> p = u \/ p = v).

Lemma next_pq i j : next_to (i, j) (negb i, j). Proof. right. cbn. split; [destruct i; discriminate|reflexivity]. Qed.
Lemma next_qo i j : next_to (i, j) (i, negb j). Proof. left. cbn. split; [reflexivity|destruct j; discriminate]. Qed.
Lemma not_saddle_same level a b : next_to a b -> V a > level -> V b > level -> ~ saddle level.
Proof. intros N A B S. destruct (S a b N) as [S1 _]. specialize (S1 A). lra. Qed.
Lemma not_saddle_same' level a b : next_to a b -> V a <= level -> V b <= level -> ~ saddle level.
Proof. intros N A B S. destruct (S a b N) as [_ S1]. specialize (S1 B). lra. Qed.

(** Around a corner *)
Lemma around_corner level i j u v : met c level (i, j) (negb i, j) u -> met c level (i, j) (i, negb j) v ->
  (saddle level -> (V (i, j) > level <-> mean c <= level)) -> exists k, divides level u v (affine k).
Proof.
  intros Mu Mv Sd. pose proof (d1_nz i) as D1. pose proof (d2_nz j) as D2.
  set (vK := V (i, j)) in *. set (vP := V (negb i, j)) in *. set (vQ := V (i, negb j)) in *. set (vO := V (negb i, negb j)).
  assert (Cu : vK > level /\ vP <= level \/ vK <= level /\ vP > level) by exact (proj1 (proj2 Mu)).
  assert (Cv : vK > level /\ vQ <= level \/ vK <= level /\ vQ > level) by exact (proj1 (proj2 Mv)).
  set (k1 := (vP - vK) / (X (negb i) - X i)). set (k2 := (vQ - vK) / (Y (negb j) - Y j)). exists (vK - level - k1 * X i - k2 * Y j, k1, k2).
  assert (H : forall xi eta, affine (vK - level - k1 * X i - k2 * Y j, k1, k2) (X i + xi * (X (negb i) - X i), Y j + eta * (Y (negb j) - Y j)) = vK + (vP - vK) * xi + (vQ - vK) * eta - level).
  { intros xi eta. unfold affine, k1, k2. cbn [fst snd]. field. split; assumption. }
  set (h := affine _) in *. clearbody h.
  assert (Pu : exists t, 0 <= t <= 1 /\ u = (X i + t * (X (negb i) - X i), Y j + 0 * (Y (negb j) - Y j)) /\ vK + t * (vP - vK) = level).
  { destruct Mu as (_ & _ & t & E & ->). fold vK vP in E. exists t. split; [split; apply Rnot_lt_le; intro T; nra|]. split; [|exact E]. rewrite !HX, !HY. cbn [fst snd]. f_equal; ring. }
  assert (Pv : exists t, 0 <= t <= 1 /\ v = (X i + 0 * (X (negb i) - X i), Y j + t * (Y (negb j) - Y j)) /\ vK + t * (vQ - vK) = level).
  { destruct Mv as (_ & _ & t & E & ->). fold vK vQ in E. exists t. split; [split; apply Rnot_lt_le; intro T; nra|]. split; [|exact E]. rewrite !HX, !HY. cbn [fst snd]. f_equal; ring. }
  destruct Pu as (t & T & Eu & Et). destruct Pv as (s & S & Ev & Es).
  (* the four sides *)
  assert (Rm : forall p w, rim p w -> (exists xi, 0 <= xi <= 1 /\ p = (X i + xi * (X (negb i) - X i), Y j + 0 * (Y (negb j) - Y j)) /\ w = vK + xi * (vP - vK) /\ h p = w - level) \/
    (exists eta, 0 <= eta <= 1 /\ p = (X i + 0 * (X (negb i) - X i), Y j + eta * (Y (negb j) - Y j)) /\ w = vK + eta * (vQ - vK) /\ h p = w - level) \/
    (exists xi, 0 <= xi <= 1 /\ w = vQ + xi * (vO - vQ) /\ h p = vQ - level + xi * (vP - vK)) \/ (exists eta, 0 <= eta <= 1 /\ w = vP + eta * (vO - vP) /\ h p = vP - level + eta * (vQ - vK))).
  { intros p w Rp. destruct (rim_local i j p w Rp) as (xi & eta & Hxi & Heta & -> & [[-> Ew]|[[-> Ew]|[[-> Ew]|[-> Ew]]]]); rewrite H.
    - left. exists xi. split; [exact Hxi|]. split; [reflexivity|]. split; [exact Ew|]. rewrite Ew. unfold vK, vP. ring.
    - right. left. exists eta. split; [exact Heta|]. split; [reflexivity|]. split; [exact Ew|]. rewrite Ew. unfold vK, vQ. ring.
    - right. right. left. exists xi. split; [exact Hxi|]. split; [exact Ew|]. unfold vK, vP, vQ. ring.
    - right. right. right. exists eta. split; [exact Heta|]. split; [exact Ew|]. unfold vK, vP, vQ. ring. }
  unfold divides. split; [rewrite Eu, H; lra|]. split; [rewrite Ev, H; lra|].
  split; [|split; [|split; [|split]]].
  - intros p w Rp Hp. destruct (Rm p w Rp) as [(xi & _ & _ & _ & E)|[(eta & _ & _ & _ & E)|[(xi & B & Ew & E)|(eta & B & Ew & E)]]]; [lra|lra| |].
    + assert (xi = 0) by (destruct (Req_dec xi 0); [assumption|exfalso; assert (0 < xi) by lra; nra]). subst xi. lra.
    + assert (eta = 0) by (destruct (Req_dec eta 0); [assumption|exfalso; assert (0 < eta) by lra; nra]). subst eta. lra.
  - intros Sm p w Rp Hw. destruct (Rm p w Rp) as [(xi & _ & _ & _ & E)|[(eta & _ & _ & _ & E)|[(xi & B & Ew & E)|(eta & B & Ew & E)]]]; [lra|lra| |].
    + destruct Cu as [[K P]|[K P]], Cv as [[K' Q]|[K' Q]]; try lra.
      * assert (O : vO > level) by (apply Rnot_le_gt; intro O; nra). exfalso. assert (Sa : saddle level) by (intros [[|] [|]] [[|] [|]] N; unfold next_to in N; cbn in N; unfold vK, vP, vQ, vO in *; destruct i, j; cbn in *; try (exfalso; intuition congruence); lra).
        specialize (Sd Sa). specialize (Sm Sa). lra.
      * destruct (Req_dec xi 0); [subst xi; lra|assert (0 < xi) by lra; nra].
    + destruct Cu as [[K P]|[K P]], Cv as [[K' Q]|[K' Q]]; try lra.
      * assert (O : vO > level) by (apply Rnot_le_gt; intro O; nra). exfalso. assert (Sa : saddle level) by (intros [[|] [|]] [[|] [|]] N; unfold next_to in N; cbn in N; unfold vK, vP, vQ, vO in *; destruct i, j; cbn in *; try (exfalso; intuition congruence); lra).
        specialize (Sd Sa). specialize (Sm Sa). lra.
      * destruct (Req_dec eta 0); [subst eta; lra|assert (0 < eta) by lra; nra].
  - intros Sm p w Rp Hw. destruct (Rm p w Rp) as [(xi & _ & _ & _ & E)|[(eta & _ & _ & _ & E)|[(xi & B & Ew & E)|(eta & B & Ew & E)]]]; [lra|lra| |].
    + destruct Cu as [[K P]|[K P]], Cv as [[K' Q]|[K' Q]]; try lra.
      * destruct (Req_dec xi 0); [subst xi; lra|assert (0 < xi) by lra; nra].
      * assert (O : vO <= level) by (apply Rnot_lt_le; intro O; nra). exfalso. assert (Sa : saddle level) by (intros [[|] [|]] [[|] [|]] N; unfold next_to in N; cbn in N; unfold vK, vP, vQ, vO in *; destruct i, j; cbn in *; try (exfalso; intuition congruence); lra).
        specialize (Sd Sa). specialize (Sm Sa). lra.
    + destruct Cu as [[K P]|[K P]], Cv as [[K' Q]|[K' Q]]; try lra.
      * destruct (Req_dec eta 0); [subst eta; lra|assert (0 < eta) by lra; nra].
      * assert (O : vO <= level) by (apply Rnot_lt_le; intro O; nra). exfalso. assert (Sa : saddle level) by (intros [[|] [|]] [[|] [|]] N; unfold next_to in N; cbn in N; unfold vK, vP, vQ, vO in *; destruct i, j; cbn in *; try (exfalso; intuition congruence); lra).
        specialize (Sd Sa). specialize (Sm Sa). lra.
  - destruct Cu as [[K P]|[K P]]; [left|right]; destruct Cv as [[K' Q]|[K' Q]]; try lra; intros p Rp; (destruct (Rm p level Rp) as [(xi & _ & _ & _ & E)|[(eta & _ & _ & _ & E)|[(xi & B & _ & E)|(eta & B & _ & E)]]]; [lra|lra|nra|nra]).
  - intros Ne p w Rp Hp. assert (NP : vP <> level) by apply Ne. assert (NQ : vQ <> level) by apply Ne.
    destruct (Rm p w Rp) as [(xi & B & -> & Ew & E)|[(eta & B & -> & Ew & E)|[(xi & B & Ew & E)|(eta & B & Ew & E)]]].
    + left. rewrite Eu. assert (xi = t) by (assert ((xi - t) * (vP - vK) = 0) by lra; nra). subst xi. reflexivity.
    + right. rewrite Ev. assert (eta = s) by (assert ((eta - s) * (vQ - vK) = 0) by lra; nra). subst eta. reflexivity.
    + exfalso. nra.
    + exfalso. nra.
Qed.

(** From side to opposite side: [F] the coordinate along which the line goes from one side to the other *)
Lemma across_lat level i j u v : met c level (i, j) (i, negb j) u -> met c level (negb i, j) (negb i, negb j) v -> V (i, j) > level -> V (negb i, j) > level -> exists k, divides level u v (affine k).
Proof.
  intros Mu Mv KA PA. pose proof (d1_nz i) as D1. pose proof (d2_nz j) as D2.
  set (vK := V (i, j)) in *. set (vP := V (negb i, j)) in *. set (vQ := V (i, negb j)) in *. set (vO := V (negb i, negb j)) in *.
  assert (QB : vQ <= level) by (destruct Mu as (_ & C & _); fold vK vQ in C; lra). assert (OB : vO <= level) by (destruct Mv as (_ & C & _); fold vP vO in C; lra).
  assert (Pu : exists t, 0 < t <= 1 /\ u = (X i + 0 * (X (negb i) - X i), Y j + t * (Y (negb j) - Y j)) /\ vK + t * (vQ - vK) = level).
  { destruct Mu as (_ & _ & t & E & ->). fold vK vQ in E. exists t. split; [split; [apply Rnot_le_lt|apply Rnot_lt_le]; intro T; nra|]. split; [|exact E]. rewrite !HX, !HY. cbn [fst snd]. f_equal; ring. }
  assert (Pv : exists t, 0 < t <= 1 /\ v = (X i + 1 * (X (negb i) - X i), Y j + t * (Y (negb j) - Y j)) /\ vP + t * (vO - vP) = level).
  { destruct Mv as (_ & _ & t & E & ->). fold vP vO in E. exists t. split; [split; [apply Rnot_le_lt|apply Rnot_lt_le]; intro T; nra|]. split; [|exact E]. rewrite !HX, !HY. cbn [fst snd]. f_equal; ring. }
  destruct Pu as (t & T & Eu & Et). destruct Pv as (s & S & Ev & Es).
  set (k1 := (s - t) / (X (negb i) - X i)). set (k2 := - 1 / (Y (negb j) - Y j)). exists (t - k1 * X i - k2 * Y j, k1, k2).
  assert (H : forall xi eta, affine (t - k1 * X i - k2 * Y j, k1, k2) (X i + xi * (X (negb i) - X i), Y j + eta * (Y (negb j) - Y j)) = t + (s - t) * xi - eta).
  { intros xi eta. unfold affine, k1, k2. cbn [fst snd]. field. split; assumption. }
  set (h := affine _) in *. clearbody h.
  assert (Rm : forall p w, rim p w -> (exists xi, 0 <= xi <= 1 /\ w > level /\ h p > 0) \/
    (exists eta, 0 <= eta <= 1 /\ p = (X i + 0 * (X (negb i) - X i), Y j + eta * (Y (negb j) - Y j)) /\ w = vK + eta * (vQ - vK) /\ h p = t - eta) \/
    (exists xi, 0 <= xi <= 1 /\ w = vQ + xi * (vO - vQ) /\ h p = t + (s - t) * xi - 1) \/
    (exists eta, 0 <= eta <= 1 /\ p = (X i + 1 * (X (negb i) - X i), Y j + eta * (Y (negb j) - Y j)) /\ w = vP + eta * (vO - vP) /\ h p = s - eta)).
  { intros p w Rp. destruct (rim_local i j p w Rp) as (xi & eta & Hxi & Heta & -> & [[-> Ew]|[[-> Ew]|[[-> Ew]|[-> Ew]]]]); rewrite H.
    - left. exists xi. split; [exact Hxi|]. fold vK vP in Ew. split; (destruct (Req_dec xi 0) as [Z0|Z0]; [rewrite Z0 in *; lra|assert (0 < xi) by lra; nra]).
    - right. left. exists eta. split; [exact Heta|]. split; [reflexivity|]. split; [exact Ew|]. ring.
    - right. right. left. exists xi. split; [exact Hxi|]. split; [exact Ew|]. ring.
    - right. right. right. exists eta. split; [exact Heta|]. split; [reflexivity|]. split; [exact Ew|]. ring. }
  assert (L1 : forall eta, vK + eta * (vQ - vK) - level = (t - eta) * (vK - vQ)) by (intro eta; rewrite <- Et; ring).
  assert (L2 : forall eta, vP + eta * (vO - vP) - level = (s - eta) * (vP - vO)) by (intro eta; rewrite <- Es; ring).
  assert (T1 : t = 1 -> vQ = level) by (intro Z1; rewrite Z1 in Et; lra). assert (S1 : s = 1 -> vO = level) by (intro Z1; rewrite Z1 in Es; lra).
  unfold divides. split; [rewrite Eu, H; lra|]. split; [rewrite Ev, H; lra|].
  split; [|split; [|split; [|split]]].
  - intros p w Rp Hp. destruct (Rm p w Rp) as [(xi & _ & _ & E)|[(eta & _ & _ & Ew & E)|[(xi & B & Ew & E)|(eta & B & _ & Ew & E)]]]; [lra| | |].
    + specialize (L1 eta). rewrite <- Ew in L1. assert (Z0 : t - eta = 0) by lra. rewrite Z0 in L1. lra.
    + assert (Z0 : (1 - xi) * (1 - t) + xi * (1 - s) = 0) by lra. assert (A1 : (1 - xi) * (1 - t) = 0) by nra. assert (A2 : xi * (1 - s) = 0) by nra.
      rewrite Ew. apply Rmult_integral in A1. apply Rmult_integral in A2. destruct A1 as [A1|A1], A2 as [A2|A2].
      * lra.
      * assert (xi = 1) by lra. subst xi. rewrite <- S1 by lra. ring.
      * assert (xi = 0) by lra. subst xi. rewrite <- T1 by lra. ring.
      * rewrite (T1 ltac:(lra)), (S1 ltac:(lra)). ring.
    + specialize (L2 eta). rewrite <- Ew in L2. assert (Z0 : s - eta = 0) by lra. rewrite Z0 in L2. lra.
  - intros _ p w Rp Hw. destruct (Rm p w Rp) as [(xi & _ & _ & E)|[(eta & _ & _ & Ew & E)|[(xi & B & Ew & E)|(eta & B & _ & Ew & E)]]]; [lra| | |].
    + specialize (L1 eta). rewrite E. apply Rnot_le_gt. intro N. nra.
    + exfalso. nra.
    + specialize (L2 eta). rewrite E. apply Rnot_le_gt. intro N. nra.
  - intros _ p w Rp Hw. destruct (Rm p w Rp) as [(xi & _ & W & E)|[(eta & _ & _ & Ew & E)|[(xi & B & Ew & E)|(eta & B & _ & Ew & E)]]]; [lra| | |].
    + specialize (L1 eta). rewrite E. apply Rnot_le_lt. intro N. nra.
    + rewrite E. apply Rnot_le_lt. intro N. assert (Z0 : (1 - xi) * (1 - t) + xi * (1 - s) <= 0) by lra. assert (A0 : 0 <= (1 - xi) * (1 - t)) by nra. assert (A00 : 0 <= xi * (1 - s)) by nra.
      assert (A1 : (1 - xi) * (1 - t) = 0) by lra. assert (A2 : xi * (1 - s) = 0) by lra. apply Rmult_integral in A1. apply Rmult_integral in A2. destruct A1 as [A1|A1], A2 as [A2|A2].
      * lra.
      * assert (xi = 1) by lra. subst xi. specialize (S1 ltac:(lra)). lra.
      * assert (xi = 0) by lra. subst xi. specialize (T1 ltac:(lra)). lra.
      * rewrite (T1 ltac:(lra)), (S1 ltac:(lra)) in Ew. lra.
    + specialize (L2 eta). rewrite E. apply Rnot_le_lt. intro N. nra.
  - left. intros p Rp. destruct (Rm p level Rp) as [(xi & _ & W & E)|[(eta & _ & _ & Ew & E)|[(xi & B & Ew & E)|(eta & B & _ & Ew & E)]]]; [lra| | |].
    + specialize (L1 eta). rewrite E. nra.
    + nra.
    + specialize (L2 eta). rewrite E. nra.
  - intros Ne p w Rp Hp. assert (t <> 1) by (intro; apply (Ne (i, negb j)); apply T1; assumption). assert (s <> 1) by (intro; apply (Ne (negb i, negb j)); apply S1; assumption).
    destruct (Rm p w Rp) as [(xi & _ & _ & E)|[(eta & _ & -> & Ew & E)|[(xi & B & Ew & E)|(eta & B & -> & Ew & E)]]]; [lra| | |].
    + left. rewrite Eu. assert (eta = t) by lra. subst eta. reflexivity.
    + exfalso. destruct (Req_dec xi 0) as [Z0|Z0]; [rewrite Z0 in E; lra|]. assert (Z1 : xi * (1 - s) > 0) by (apply Rmult_lt_0_compat; lra). assert (Z2 : 0 <= (1 - xi) * (1 - t)) by (apply Rmult_le_pos; lra). lra.
    + right. rewrite Ev. assert (eta = s) by lra. subst eta. reflexivity.
Qed.
End Rect.

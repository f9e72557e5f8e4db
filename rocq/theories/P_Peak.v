(** C134: the contours of a field with one Gaussian *)
From Coq Require Import Reals Lra Lia Bool Psatz List FunctionalExtensionality.
From Verif Require Import M_Base M_Gauss M_Cntr M_Extract S_Cntr S_Border S_Cross S_Turn S_Enclose S_Hill S_Peak L_Loop L_Nest L_Hill P_Cntr P_Lines P_Border P_Cross P_Enclose P_Nest P_Hill.
Import ListNotations.
Open Scope Z_scope.

(** *** Regions that are star-shaped along rows and columns are connected, and so is the rest *)
Section Star.
Variables cols rows : Z.
Hypothesis C1 : 1 <= cols.
Hypothesis R1 : 1 <= rows.
Variable above : Z -> bool.
Variable kn : Z * Z -> bool -> Prop.
Notation at_ i j := (i + j * cols).
Notation linked := (connected cols rows above kn).
Lemma walk_row j (i : Z) n : 0 <= j < rows -> 0 <= i -> i + Z.of_nat n < cols -> (forall k, i <= k <= i + Z.of_nat n -> above (at_ k j) = above (at_ i j)) -> linked (at_ i j) (at_ (i + Z.of_nat n) j).
Proof.
  intros Hj Hi. induction n as [|n IH]; intros Hn H; [replace (i + Z.of_nat 0) with i by lia; constructor|].
  apply (connected_trans _ _ _ _ _ (at_ (i + Z.of_nat n) j)); [apply IH; [lia|]; intros k Hk; apply H; lia|].
  destruct (coord cols rows (i + Z.of_nat n) j) as (A1 & A2 & A3); [lia|lia|]. destruct (coord cols rows (i + Z.of_nat (S n)) j) as (B1 & B2 & B3); [lia|lia|].
  refine (Beside _ _ _ _ _ _ _ (mk_side _ _ _ _ A1 B1 _) _ (Here _ _ _ _ _)); [left; lia|]. rewrite (H (i + Z.of_nat n)), (H (i + Z.of_nat (S n))) by lia. reflexivity.
Qed.
Lemma walk_column i (j : Z) n : 0 <= i < cols -> 0 <= j -> j + Z.of_nat n < rows -> (forall k, j <= k <= j + Z.of_nat n -> above (at_ i k) = above (at_ i j)) -> linked (at_ i j) (at_ i (j + Z.of_nat n)).
Proof.
  intros Hi Hj. induction n as [|n IH]; intros Hn H; [replace (j + Z.of_nat 0) with j by lia; constructor|].
  apply (connected_trans _ _ _ _ _ (at_ i (j + Z.of_nat n))); [apply IH; [lia|]; intros k Hk; apply H; lia|].
  destruct (coord cols rows i (j + Z.of_nat n)) as (A1 & A2 & A3); [lia|lia|]. destruct (coord cols rows i (j + Z.of_nat (S n))) as (B1 & B2 & B3); [lia|lia|].
  refine (Beside _ _ _ _ _ _ _ (mk_side _ _ _ _ A1 B1 _) _ (Here _ _ _ _ _)); [right; lia|]. rewrite (H (j + Z.of_nat n)), (H (j + Z.of_nat (S n))) by lia. reflexivity.
Qed.
Lemma go_row j i i' : 0 <= j < rows -> 0 <= i < cols -> 0 <= i' < cols -> (forall k, Z.min i i' <= k <= Z.max i i' -> above (at_ k j) = above (at_ i j)) -> linked (at_ i j) (at_ i' j).
Proof.
  intros Hj Hi Hi' H. destruct (Z.le_ge_cases i i') as [L|L].
  - replace i' with (i + Z.of_nat (Z.to_nat (i' - i))) by lia. apply walk_row; [lia|lia|lia|]. intros k Hk. apply H. lia.
  - apply connected_sym. pose proof (walk_row j i' (Z.to_nat (i - i'))) as W. replace (i' + Z.of_nat (Z.to_nat (i - i'))) with i in W by lia. apply W; [lia|lia|lia|]. intros k Hk. rewrite (H k), (H i') by lia. reflexivity.
Qed.
Lemma go_column i j j' : 0 <= i < cols -> 0 <= j < rows -> 0 <= j' < rows -> (forall k, Z.min j j' <= k <= Z.max j j' -> above (at_ i k) = above (at_ i j)) -> linked (at_ i j) (at_ i j').
Proof.
  intros Hi Hj Hj' H. destruct (Z.le_ge_cases j j') as [L|L].
  - replace j' with (j + Z.of_nat (Z.to_nat (j' - j))) by lia. apply walk_column; [lia|lia|lia|]. intros k Hk. apply H. lia.
  - apply connected_sym. pose proof (walk_column i j' (Z.to_nat (j - j'))) as W. replace (j' + Z.of_nat (Z.to_nat (j - j'))) with j in W by lia. apply W; [lia|lia|lia|]. intros k Hk. rewrite (H k), (H j') by lia. reflexivity.
Qed.
Variable hill : bool.
Variables i0 j0 : Z.
Hypothesis I0 : 0 <= i0 < cols.
Hypothesis J0 : 0 <= j0 < rows.
(** Going towards column i0 or row j0 one stays in the region *)
Hypothesis in_row : forall i i' j, 0 <= i < cols -> 0 <= j < rows -> Z.min i i0 <= i' <= Z.max i i0 -> above (at_ i j) = hill -> above (at_ i' j) = hill.
Hypothesis in_column : forall i j j', 0 <= i < cols -> 0 <= j < rows -> Z.min j j0 <= j' <= Z.max j j0 -> above (at_ i j) = hill -> above (at_ i j') = hill.
Hypothesis on_border : forall k, border_point cols rows k -> above k = negb hill.
Lemma to_the_middle i j : 0 <= i < cols -> 0 <= j < rows -> above (at_ i j) = hill -> linked (at_ i j) (at_ i0 j0).
Proof.
  intros Hi Hj H. apply (connected_trans _ _ _ _ _ (at_ i0 j)).
  - apply go_row; try assumption. intros k Hk. rewrite H. exact (in_row i k j Hi Hj Hk H).
  - apply go_column; try assumption. assert (H0 : above (at_ i0 j) = hill) by (apply (in_row i i0 j Hi Hj); [lia|exact H]). intros k Hk. rewrite H0. exact (in_column i0 j k I0 Hj Hk H0).
Qed.
Lemma border_at i j : 0 <= i < cols -> 0 <= j < rows -> i = 0 \/ i = cols - 1 \/ j = 0 \/ j = rows - 1 -> above (at_ i j) = negb hill.
Proof. intros Hi Hj B. destruct (coord cols rows i j Hi Hj) as (A1 & A2 & A3). apply on_border. split; [exact A1|]. rewrite A2, A3. tauto. Qed.
Lemma to_the_corner i j : 0 <= i < cols -> 0 <= j < rows -> above (at_ i j) = negb hill -> linked (at_ i j) (at_ 0 0).
Proof.
  intros Hi Hj H. assert (Out : forall k, (i0 <= i -> i <= k < cols) -> (i < i0 -> 0 <= k <= i) -> above (at_ k j) = negb hill).
  { intros k K1 K2. destruct (bool_dec (above (at_ k j)) hill) as [E|E]; [|destruct (above (at_ k j)), hill; cbn in *; congruence].
    exfalso. assert (X : above (at_ i j) = hill) by (apply (in_row k i j); [lia|exact Hj|lia|exact E]). destruct (above (at_ i j)), hill; cbn in *; congruence. }
  set (e := if i0 <=? i then cols - 1 else 0). assert (He : e = cols - 1 /\ i0 <= i \/ e = 0 /\ i < i0) by (unfold e; destruct (Z.leb_spec i0 i); auto).
  apply (connected_trans _ _ _ _ _ (at_ e j)); [apply go_row; [lia|lia|lia|]; intros k Hk; rewrite H; apply Out; lia|].
  apply (connected_trans _ _ _ _ _ (at_ e 0)).
  - apply go_column; [lia|lia|lia|]. intros k Hk. rewrite (border_at e k), (border_at e j) by lia. reflexivity.
  - apply go_row; [lia|lia|lia|]. intros k Hk. rewrite (border_at k 0), (border_at e 0) by lia. reflexivity.
Qed.
Lemma star_connected p q : S_Cntr.in_mesh cols rows p -> S_Cntr.in_mesh cols rows q -> above p = above q -> linked p q.
Proof.
  intros Ip Iq E. destruct (coord_of cols rows p) as (i & j & -> & Hi & Hj); [lia|exact Ip|]. destruct (coord_of cols rows q) as (i' & j' & -> & Hi' & Hj'); [lia|exact Iq|].
  destruct (bool_dec (above (at_ i j)) hill) as [H|H].
  - apply (connected_trans _ _ _ _ _ (at_ i0 j0)); [apply to_the_middle; assumption|]. apply connected_sym, to_the_middle; [assumption|assumption|congruence].
  - assert (H' : above (at_ i j) = negb hill) by (destruct (above (at_ i j)), hill; cbn; congruence).
    apply (connected_trans _ _ _ _ _ (at_ 0 0)); [apply to_the_corner; assumption|]. apply connected_sym, to_the_corner; [assumption|assumption|congruence].
Qed.
End Star.

(** *** The squared distance from a point decreases towards the nearest coordinate *)
Open Scope R_scope.
Lemma least_index (f : Z -> R) n : (0 < n)%nat -> exists i, (0 <= i < Z.of_nat n)%Z /\ forall k, (0 <= k < Z.of_nat n)%Z -> f i <= f k.
Proof.
  induction n as [|n IH]; [lia|]. intros _. destruct n as [|n]; [exists 0%Z; split; [lia|]; intros k Hk; replace k with 0%Z by lia; lra|].
  destruct IH as (i & Hi & H); [lia|]. destruct (Rle_lt_dec (f i) (f (Z.of_nat (S n)))) as [L|L].
  - exists i. split; [lia|]. intros k Hk. destruct (Z.eq_dec k (Z.of_nat (S n))) as [->|N]; [exact L|apply H; lia].
  - exists (Z.of_nat (S n)). split; [lia|]. intros k Hk. destruct (Z.eq_dec k (Z.of_nat (S n))) as [->|N]; [lra|]. specialize (H k ltac:(lia)). lra.
Qed.
Lemma square_between a b d c : (a <= b <= d \/ d <= b <= a) -> (b - c) ^ 2 <= Rmax ((a - c) ^ 2) ((d - c) ^ 2).
Proof.
  intro H. pose proof (Rmax_l ((a - c) ^ 2) ((d - c) ^ 2)) as M1. pose proof (Rmax_r ((a - c) ^ 2) ((d - c) ^ 2)) as M2. destruct (Rle_lt_dec b c) as [L|L], H as [[H1 H2]|[H1 H2]].
  - apply Rle_trans with ((a - c) ^ 2); [nra|exact M1].
  - apply Rle_trans with ((d - c) ^ 2); [nra|exact M2].
  - apply Rle_trans with ((d - c) ^ 2); [nra|exact M2].
  - apply Rle_trans with ((a - c) ^ 2); [nra|exact M1].
Qed.
Lemma axis_valley n f c : (1 <= n)%Z -> monotone_axis n f -> exists m, (0 <= m < n)%Z /\ forall i i', (0 <= i < n)%Z -> (Z.min i m <= i' <= Z.max i m)%Z -> (f i' - c) ^ 2 <= (f i - c) ^ 2.
Proof.
  intros Hn M. destruct (least_index (fun k => (f k - c) ^ 2) (Z.to_nat n)) as (m & Hm & L); [lia|]. rewrite Z2Nat.id in * by lia. exists m. split; [exact Hm|]. intros i i' Hi Hi'.
  assert (W : (forall a b, (0 <= a)%Z -> (a <= b)%Z -> (b < n)%Z -> f a <= f b) \/ (forall a b, (0 <= a)%Z -> (a <= b)%Z -> (b < n)%Z -> f b <= f a)).
  { destruct M as [M|M]; [left|right]; intros a b Ha Hab Hb; (destruct (Z.eq_dec a b) as [->|D]; [lra|]); apply Rlt_le, M; lia. }
  assert (B : f i <= f i' <= f m \/ f m <= f i' <= f i).
  { destruct (Z.le_ge_cases i m) as [X|X], W as [W|W].
    - left. split; apply W; lia.
    - right. split; apply W; lia.
    - right. split; apply W; lia.
    - left. split; apply W; lia. }
  pose proof (square_between (f i) (f i') (f m) c B) as Q. specialize (L i Hi). cbv beta in L. rewrite Rmax_left in Q by exact L. exact Q.
Qed.

Lemma aligned_product s1 s2 t : s1 <> 0 -> s2 <> 0 -> aligned s1 s2 t -> sin (2 * t) / (4 * s1 ^ 2) - sin (2 * t) / (4 * s2 ^ 2) = 0.
Proof.
  intros N1 N2 [H|[H|H]].
  - assert (E : s1 ^ 2 = s2 ^ 2) by (rewrite <- (pow2_abs s1), <- (pow2_abs s2), H; reflexivity). rewrite E. ring.
  - rewrite sin_2a, H. unfold Rdiv. ring.
  - rewrite sin_2a, H. unfold Rdiv. ring.
Qed.
Definition stretch_x (s1 s2 t : R) : R := cos t ^ 2 / (2 * s1 ^ 2) + sin t ^ 2 / (2 * s2 ^ 2).
Definition stretch_y (s1 s2 t : R) : R := sin t ^ 2 / (2 * s1 ^ 2) + cos t ^ 2 / (2 * s2 ^ 2).
Lemma stretch_pos a b s1 s2 : s1 <> 0 -> s2 <> 0 -> 0 <= a ^ 2 / (2 * s1 ^ 2) + b ^ 2 / (2 * s2 ^ 2).
Proof.
  intros N1 N2. assert (P : forall s, s <> 0 -> 0 < 2 * s ^ 2) by (intros s N; assert (0 < s ^ 2) by (rewrite <- Rsqr_pow2; apply Rsqr_pos_lt, N); lra).
  assert (0 <= a ^ 2 / (2 * s1 ^ 2)) by (apply Rmult_le_pos; [apply pow2_ge_0|apply Rlt_le, Rinv_0_lt_compat, P, N1]). assert (0 <= b ^ 2 / (2 * s2 ^ 2)) by (apply Rmult_le_pos; [apply pow2_ge_0|apply Rlt_le, Rinv_0_lt_compat, P, N2]). lra.
Qed.
Lemma gaussian_aligned A x0 y0 s1 s2 t x y : s1 <> 0 -> s2 <> 0 -> aligned s1 s2 t -> gaussian_at A x0 y0 s1 s2 t x y = A * exp (- (stretch_x s1 s2 t * (x - x0) ^ 2 + stretch_y s1 s2 t * (y - y0) ^ 2)).
Proof. intros N1 N2 H. unfold gaussian_at. rewrite (aligned_product s1 s2 t N1 N2 H). fold (stretch_x s1 s2 t) (stretch_y s1 s2 t). do 2 f_equal. ring. Qed.
Lemma gaussian_nearer A q q' level : q' <= q -> beyond_level A level (A * exp (- q)) -> beyond_level A level (A * exp (- q')).
Proof.
  intros L H. assert (E : exp (- q) <= exp (- q')) by (destruct L as [L|L]; [left; apply exp_increasing; lra|right; rewrite L; reflexivity]). destruct H as [[P H]|[P H]]; [left|right]; (split; [exact P|]); nra.
Qed.

(** C134: one Gaussian, circular or aligned with the axes, has exactly one contour of every level that some grid point is beyond and no point of the border; it is closed, and the points inside are those beyond the level *)
Theorem C134_one_gaussian_one_contour : forall fuel mem x y z A x0 y0 s1 s2 theta level segments codes, meshed x y z -> (2 <= m_cols R z)%Z -> (2 <= m_rows R z)%Z -> with_axes x y z -> misses_the_level z level -> enough z fuel ->
  s1 <> 0 -> s2 <> 0 -> aligned s1 s2 theta -> one_gaussian x y z A x0 y0 s1 s2 theta -> level_inside z A level -> extractR fuel mem x y z level = Ok (segments, codes) ->
  exists vs, segments = [Verts R vs] /\ closed_outline vs /\ forall p, in_mesh (m_cols R z) (m_rows R z) p -> inside_of vs (node x y p) <-> beyond_level A level (m_at R z p).
Proof.
  intros fuel mem x y z A x0 y0 s1 s2 theta level segments codes M C2 R2 Ax Ms F N1 N2 Al G [Ex Bd] E. pose proof Ax as (xs & ys & MX & MY & AX). set (cols := m_cols R z) in *. set (rows := m_rows R z) in *.
  set (hill := if Rlt_dec 0 A then true else false).
  assert (Sgn : A <> 0) by (destruct Ex as (k & _ & [[P _]|[P _]]); lra).
  assert (Hb : forall k, in_mesh cols rows k -> is_higher (m_at R z k) level = hill <-> beyond_level A level (m_at R z k)).
  { intros k Ik. pose proof (Ms k Ik) as Nk. unfold is_higher, hill, beyond_level. destruct (Rlt_dec level (m_at R z k)), (Rlt_dec 0 A); split; intro X; try discriminate X; try reflexivity; try (left; split; lra); try (right; split; lra); destruct X as [[X Y]|[X Y]]; lra. }
  destruct (axis_valley cols xs x0 ltac:(lia) MX) as (i0 & I0 & Vx). destruct (axis_valley rows ys y0 ltac:(lia) MY) as (j0 & J0 & Vy).
  assert (Val : forall i j, (0 <= i < cols)%Z -> (0 <= j < rows)%Z -> in_mesh cols rows (i + j * cols)%Z /\ m_at R z (i + j * cols)%Z = A * exp (- (stretch_x s1 s2 theta * (xs i - x0) ^ 2 + stretch_y s1 s2 theta * (ys j - y0) ^ 2))).
  { intros i j Hi Hj. destruct (coord cols rows i j Hi Hj) as (A1 & A2 & A3). split; [exact A1|]. rewrite (G _ A1), (gaussian_aligned _ _ _ _ _ _ _ _ N1 N2 Al). destruct (AX _ A1) as [-> ->]. rewrite A2, A3. reflexivity. }
  pose proof (stretch_pos (cos theta) (sin theta) s1 s2 N1 N2) as Px. fold (stretch_x s1 s2 theta) in Px. pose proof (stretch_pos (sin theta) (cos theta) s1 s2 N1 N2) as Py. fold (stretch_y s1 s2 theta) in Py.
  assert (Cn : forall p q, in_mesh cols rows p -> in_mesh cols rows q -> is_higher (m_at R z p) level = is_higher (m_at R z q) level -> joined_on_one_side z level p q).
  { intros p q Ip Iq Eq. unfold joined_on_one_side. apply (star_connected cols rows ltac:(lia) ltac:(lia) (fun k => is_higher (m_at R z k) level) _ hill i0 j0 I0 J0); try assumption.
    - intros i i' j Hi Hj Hi' H. destruct (Val i j Hi Hj) as [V1 V2]. destruct (Val i' j ltac:(lia) Hj) as [V1' V2']. apply (Hb _ V1) in H. apply (Hb _ V1'). rewrite V2 in H. rewrite V2'. refine (gaussian_nearer _ _ _ _ _ H). pose proof (Vx i i' Hi Hi'). nra.
    - intros i j j' Hi Hj Hj' H. destruct (Val i j Hi Hj) as [V1 V2]. destruct (Val i j' Hi ltac:(lia)) as [V1' V2']. apply (Hb _ V1) in H. apply (Hb _ V1'). rewrite V2 in H. rewrite V2'. refine (gaussian_nearer _ _ _ _ _ H). pose proof (Vy j j' Hj Hj'). nra.
    - intros k Bk. destruct (bool_dec (is_higher (m_at R z k) level) hill) as [X|X]; [exfalso; apply (Bd k Bk), (Hb k (proj1 Bk)), X|]. destruct (is_higher (m_at R z k) level), hill; cbn; congruence. }
  destruct (C130_one_hill_one_contour fuel mem x y z level hill segments codes M C2 R2 Ax Ms F) as (vs & V1 & V2 & V3); [| |exact Cn|exact E|].
  - destruct Ex as (k & Ik & Bk). exists k. split; [exact Ik|]. apply (Hb k Ik), Bk.
  - intros k Bk. destruct (bool_dec (is_higher (m_at R z k) level) hill) as [X|X]; [exfalso; apply (Bd k Bk), (Hb k (proj1 Bk)), X|]. destruct (is_higher (m_at R z k) level), hill; cbn; congruence.
  - exists vs. split; [exact V1|]. split; [exact V2|]. intros p Ip. rewrite (V3 p Ip). apply (Hb p Ip).
Qed.
Print Assumptions C134_one_gaussian_one_contour.

(** *** The hypotheses are met; without alignment the statement is false *)
Definition fiveX : mat R := mkMat R 5 5 (fun k => IZR (k mod 5)).
Definition fiveY : mat R := mkMat R 5 5 (fun k => IZR (k / 5)).
(** 5 x 5 points with the values of the Gaussian of amplitude 1 around the point in the middle *)
Definition fiveZ (s1 s2 theta : R) : mat R := mkMat R 5 5 (fun k => if ((0 <=? k) && (k <? 25))%Z%bool then gaussian_at 1 2 2 s1 s2 theta (IZR (k mod 5)) (IZR (k / 5)) else 0).
Lemma five_in k : in_mesh 5 5 k -> ((0 <=? k) && (k <? 25))%Z%bool = true.
Proof. unfold in_mesh. intro H. apply andb_true_intro. split; [apply Z.leb_le|apply Z.ltb_lt]; lia. Qed.
Lemma five_at s1 s2 t k : in_mesh 5 5 k -> m_at R (fiveZ s1 s2 t) k = gaussian_at 1 2 2 s1 s2 t (IZR (k mod 5)) (IZR (k / 5)).
Proof. intro H. unfold fiveZ. cbn [m_at]. rewrite (five_in k H). reflexivity. Qed.
Lemma five_axes s1 s2 t : with_axes fiveX fiveY (fiveZ s1 s2 t).
Proof. exists IZR, IZR. split; [left; intros; apply IZR_lt; assumption|]. split; [left; intros; apply IZR_lt; assumption|]. intros k _. split; reflexivity. Qed.
Lemma five_gaussian s1 s2 t : one_gaussian fiveX fiveY (fiveZ s1 s2 t) 1 2 2 s1 s2 t.
Proof. intros k Ik. apply five_at, Ik. Qed.
Lemma all_25 (P : Z -> Prop) : (forall i, In i [0;1;2;3;4;5;6;7;8;9;10;11;12;13;14;15;16;17;18;19;20;21;22;23;24]%Z -> P i) -> forall k, in_mesh 5 5 k -> P k.
Proof. intros H k [K1 K2]. apply H. cbn. lia. Qed.
Lemma exp_low q : 0 <= q -> exp (- q) <= / (1 + q).
Proof. intro H. rewrite exp_Ropp. apply Rinv_le_contravar; [lra|]. destruct (Req_dec q 0) as [->|N]; [rewrite exp_0; lra|]. left. apply exp_ineq1. exact N. Qed.
Lemma exp_high q : 1 - q <= exp (- q).
Proof. destruct (Req_dec q 0) as [->|N]; [rewrite Ropp_0, exp_0; lra|]. replace (1 - q) with (1 + - q) by ring. left. apply exp_ineq1. lra. Qed.

(** A Gaussian twice as wide along the parallel: the points 11, 12 and 13 are above 2 / 5 *)
Definition row_hill (k : Z) : bool := existsb (Z.eqb k) [11; 12; 13]%Z.
Lemma flat_value : forall k, in_mesh 5 5 k -> if row_hill k then 1 / 2 <= m_at R (fiveZ 1 (1 / 2) 0) k else m_at R (fiveZ 1 (1 / 2) 0) k <= / (1 + 2).
Proof.
  intros k Ik. rewrite (five_at _ _ _ k Ik). unfold gaussian_at. rewrite Rmult_0_r, sin_0, cos_0, Rmult_1_l. revert k Ik. apply all_25. intros i Hi.
  assert (E : forall u v, (1 ^ 2 / (2 * 1 ^ 2) + 0 ^ 2 / (2 * (1 / 2) ^ 2)) * u ^ 2 + 2 * (0 / (4 * 1 ^ 2) - 0 / (4 * (1 / 2) ^ 2)) * u * v + (0 ^ 2 / (2 * 1 ^ 2) + 1 ^ 2 / (2 * (1 / 2) ^ 2)) * v ^ 2 = u ^ 2 / 2 + 2 * v ^ 2) by (intros; field). rewrite E.
  assert (Hi' : forall q, q <= 1 / 2 -> 1 / 2 <= exp (- q)) by (intros q Hq; pose proof (exp_high q); lra).
  assert (Lo' : forall q, 2 <= q -> exp (- q) <= / (1 + 2)) by (intros q Hq; apply Rle_trans with (/ (1 + q)); [apply exp_low; lra|apply Rinv_le_contravar; lra]).
  cbn [In] in Hi. repeat (destruct Hi as [<-|Hi]; [cbv [row_hill existsb Z.eqb Pos.eqb orb]; first [apply Hi'|apply Lo']; match goal with |- context [(?a mod 5)%Z] => let b := eval compute in (a mod 5)%Z in change (a mod 5)%Z with b; let c := eval compute in (a / 5)%Z in change (a / 5)%Z with c end; lra|]); destruct Hi.
Qed.
Example C134_case : meshed fiveX fiveY (fiveZ 1 (1 / 2) 0) /\ with_axes fiveX fiveY (fiveZ 1 (1 / 2) 0) /\ misses_the_level (fiveZ 1 (1 / 2) 0) (2 / 5) /\ enough (fiveZ 1 (1 / 2) 0) 200 /\
  aligned 1 (1 / 2) 0 /\ one_gaussian fiveX fiveY (fiveZ 1 (1 / 2) 0) 1 2 2 1 (1 / 2) 0 /\ level_inside (fiveZ 1 (1 / 2) 0) 1 (2 / 5) /\
  exists s c, extractR 200 (fun _ => blank) fiveX fiveY (fiveZ 1 (1 / 2) 0) (2 / 5) = Ok (s, c).
Proof.
  assert (M : meshed fiveX fiveY (fiveZ 1 (1 / 2) 0)) by (unfold meshed; cbn; lia). assert (F : enough (fiveZ 1 (1 / 2) 0) 200) by (unfold enough; cbn; lia).
  split; [exact M|]. split; [apply five_axes|]. split; [intros k Ik; pose proof (flat_value k Ik) as V; destruct (row_hill k); lra|]. split; [exact F|]. split; [right; right; apply sin_0|]. split; [apply five_gaussian|]. split.
  - split.
    + exists 12%Z. assert (I12 : in_mesh 5 5 12) by (unfold in_mesh; lia). split; [exact I12|]. left. pose proof (flat_value 12%Z I12) as V. cbn [row_hill existsb Z.eqb Pos.eqb orb] in V. lra.
    + intros k [Ik Bk] [[_ X]|[X _]]; [|lra]. cbn in Ik, Bk. pose proof (flat_value k Ik) as V. destruct (row_hill k) eqn:Hk; [|lra]. unfold row_hill in Hk. apply existsb_exists in Hk. destruct Hk as (a & Ha & Ea). apply Z.eqb_eq in Ea. subst a.
      unfold row_of, col_of in Bk. cbn [In] in Ha. destruct Ha as [<-|[<-|[<-|[]]]]; cbn in Bk; lia.
  - exact (C64_tracing_stays_inside_the_arrays R Rplus Rminus Rmult Rdiv 4 Rgtb Reqb 200 (fun _ => blank) _ _ _ (2 / 5) M F).
Qed.

(** A thin Gaussian along the diagonal: the points 6, 12 and 18 are above 3 / 4 *)
Definition thinZ : mat R := fiveZ (sqrt 5) (sqrt (1 / 20)) (PI / 4).
Definition diagonal (k : Z) : bool := existsb (Z.eqb k) [6; 12; 18]%Z.
Lemma thin_shape u v : gaussian_at 1 2 2 (sqrt 5) (sqrt (1 / 20)) (PI / 4) u v = exp (- (101 / 20 * (u - 2) ^ 2 - 99 / 10 * (u - 2) * (v - 2) + 101 / 20 * (v - 2) ^ 2)).
Proof.
  unfold gaussian_at. replace (2 * (PI / 4)) with (PI / 2) by field. rewrite sin_PI2, cos_PI4, sin_PI4, Rmult_1_l. rewrite !pow2_sqrt by lra.
  assert (D : (1 / sqrt 2) ^ 2 = 1 / 2) by (unfold Rdiv; rewrite Rpow_mult_distr, pow_inv, pow2_sqrt by lra; field). rewrite D. do 2 f_equal. field.
Qed.
Lemma thin_value : forall k, if diagonal k then 3 / 4 < m_at R thinZ k <= 1 else 0 <= m_at R thinZ k < 1 / 2.
Proof.
  intro k. destruct ((0 <=? k) && (k <? 25))%Z%bool eqn:I.
  - assert (Ik : in_mesh 5 5 k) by (apply andb_prop in I; destruct I as [I1 I2]; apply Z.leb_le in I1; apply Z.ltb_lt in I2; unfold in_mesh; lia). clear I.
    unfold thinZ. rewrite (five_at _ _ _ k Ik), thin_shape. revert k Ik. apply all_25. intros i Hi.
    assert (Hi' : forall q, 0 <= q <= 1 / 5 -> 3 / 4 < exp (- q) <= 1) by (intros q Hq; pose proof (exp_high q); pose proof (exp_low q ltac:(lra)); assert (/ (1 + q) <= / 1) by (apply Rinv_le_contravar; lra); rewrite Rinv_1 in *; lra).
    assert (Lo' : forall q, 4 / 5 <= q -> 0 <= exp (- q) < 1 / 2).
    { intros q Hq. pose proof (exp_pos (- q)). split; [lra|]. replace (- q) with (- (q / 4) + - (q / 4) + (- (q / 4) + - (q / 4))) by field. rewrite !exp_plus. assert (B : exp (- (q / 4)) <= / (1 + 1 / 5)) by (apply Rle_trans with (/ (1 + q / 4)); [apply exp_low; lra|apply Rinv_le_contravar; lra]).
      replace (/ (1 + 1 / 5)) with (5 / 6) in B by field. pose proof (exp_pos (- (q / 4))) as P. set (e := exp (- (q / 4))) in *. assert (e * e <= 25 / 36) by nra. nra. }
    cbn [In] in Hi. repeat (destruct Hi as [<-|Hi]; [cbv [diagonal existsb Z.eqb Pos.eqb orb]; first [apply Hi'|apply Lo']; match goal with |- context [(?a mod 5)%Z] => let b := eval compute in (a mod 5)%Z in change (a mod 5)%Z with b; let c := eval compute in (a / 5)%Z in change (a / 5)%Z with c end; lra|]); destruct Hi.
  - unfold thinZ, fiveZ. cbn [m_at]. rewrite I. destruct (diagonal k) eqn:D; [|lra]. exfalso. unfold diagonal in D. apply existsb_exists in D. destruct D as (a & Ha & Ea). apply Z.eqb_eq in Ea. subst a. cbn [In] in Ha. destruct Ha as [<-|[<-|[<-|[]]]]; discriminate I.
Qed.
Lemma thin_above : above_of R Rgtb thinZ (3 / 4) = diagonal.
Proof. apply functional_extensionality. intro k. unfold above_of. pose proof (thin_value k) as V. destruct (diagonal k); [apply Rgtb_true|apply Rgtb_false]; lra. Qed.
Lemma thin_mean : centre_of R Rplus Rdiv 4 Rgtb thinZ (3 / 4) = fun p q r s => match (Z.b2z (diagonal p) + Z.b2z (diagonal q) + Z.b2z (diagonal r) + Z.b2z (diagonal s))%Z with 4%Z => true | 3%Z => centre_of R Rplus Rdiv 4 Rgtb thinZ (3 / 4) p q r s | _ => false end.
Proof.
  apply functional_extensionality; intro p; apply functional_extensionality; intro q; apply functional_extensionality; intro r; apply functional_extensionality; intro s.
  unfold centre_of. pose proof (thin_value p) as Vp. pose proof (thin_value q) as Vq. pose proof (thin_value r) as Vr. pose proof (thin_value s) as Vs.
  destruct (diagonal p), (diagonal q), (diagonal r), (diagonal s); cbn [Z.b2z Z.add Pos.add Pos.succ]; first [reflexivity|apply Rgtb_true; lra|apply Rgtb_false; lra].
Qed.
(** C134: the same is false of a Gaussian that is not aligned with the axes: the contour falls apart into three *)
Theorem C134_tilted_gaussian_refuted : exists x y z A x0 y0 s1 s2 theta level, meshed x y z /\ (2 <= m_cols R z)%Z /\ (2 <= m_rows R z)%Z /\ with_axes x y z /\ misses_the_level z level /\
  s1 <> 0 /\ s2 <> 0 /\ one_gaussian x y z A x0 y0 s1 s2 theta /\ level_inside z A level /\
  exists fuel mem a b c codes, enough z fuel /\ extractR fuel mem x y z level = Ok ([Verts R a; Verts R b; Verts R c], codes) /\ closed_outline a /\ closed_outline b /\ closed_outline c.
Proof.
  exists fiveX, fiveY, thinZ, 1, 2, 2, (sqrt 5), (sqrt (1 / 20)), (PI / 4), (3 / 4). assert (M : meshed fiveX fiveY thinZ) by (unfold meshed; cbn; lia). assert (F : enough thinZ 200) by (unfold enough; cbn; lia).
  split; [exact M|]. split; [cbn; lia|]. split; [cbn; lia|]. split; [apply five_axes|]. split; [intros k _; pose proof (thin_value k) as V; destruct (diagonal k); lra|].
  split; [apply Rgt_not_eq, sqrt_lt_R0; lra|]. split; [apply Rgt_not_eq, sqrt_lt_R0; lra|]. split; [apply five_gaussian|]. split.
  - split.
    + exists 12%Z. split; [unfold in_mesh; cbn; lia|]. left. pose proof (thin_value 12%Z) as V. cbn [diagonal existsb Z.eqb Pos.eqb orb] in V. lra.
    + intros k [Ik Bk] [[_ X]|[X _]]; [|lra]. cbn in Ik, Bk. pose proof (thin_value k) as V. destruct (diagonal k) eqn:Hk; [|lra]. unfold diagonal in Hk. apply existsb_exists in Hk. destruct Hk as (a & Ha & Ea). apply Z.eqb_eq in Ea. subst a.
      unfold row_of, col_of in Bk. cbn [In] in Ha. destruct Ha as [<-|[<-|[<-|[]]]]; cbn in Bk; lia.
  - exists 200%nat, (fun _ => blank). destruct (master R Rplus Rminus Rmult Rdiv 4 Rgtb Reqb 200 (fun _ => blank) fiveX fiveY thinZ (3 / 4) M F) as (T & curves & cd & E & _ & Tr & _).
    rewrite thin_above, thin_mean in Tr. vm_compute in Tr. injection Tr as <-. do 3 eexists. eexists. split; [exact F|]. split; [exact E|].
    split; [|split]; (apply closed_map; [cbn; lia|]); eexists; (split; [eexists; reflexivity|]); match goal with |- finishes ?l ?e => exists (removelast l); reflexivity end.
Qed.
Print Assumptions C134_tilted_gaussian_refuted.

(** C118: lines of different levels never meet.  C119: lines of one level meet in their ends only. *)
From Coq Require Import Reals Lra Lia Bool Psatz List.
From Verif Require Import M_Base M_Cntr M_Extract S_Cntr S_Lines S_Lines2 S_Border S_Cross P_Cntr P_Lines P_Lines2 P_Border L_Cross L_Cross2.
Import ListNotations.
Open Scope R_scope.

(** Two intervals of an axis with a common point *)
Lemma axis_meet n f i i' a b : monotone_axis n f -> (0 <= i < n - 1)%Z -> (0 <= i' < n - 1)%Z -> 0 <= a <= 1 -> 0 <= b <= 1 ->
  f i + a * (f (i + 1)%Z - f i) = f i' + b * (f (i' + 1)%Z - f i') ->
  (i = i' /\ a = b) \/ ((i' = i + 1)%Z /\ a = 1 /\ b = 0) \/ ((i = i' + 1)%Z /\ a = 0 /\ b = 1).
Proof.
  intros M Hi Hi' Ha Hb E.
  assert (G : forall g : Z -> R, (forall u v, (0 <= u)%Z -> (u < v)%Z -> (v < n)%Z -> g u < g v) -> g i + a * (g (i + 1)%Z - g i) = g i' + b * (g (i' + 1)%Z - g i') ->
    (i = i' /\ a = b) \/ ((i' = i + 1)%Z /\ a = 1 /\ b = 0) \/ ((i = i' + 1)%Z /\ a = 0 /\ b = 1)).
  { intros g I Eg. pose proof (I i (i + 1)%Z ltac:(lia) ltac:(lia) ltac:(lia)) as A. pose proof (I i' (i' + 1)%Z ltac:(lia) ltac:(lia) ltac:(lia)) as B.
    destruct (Z.lt_trichotomy i i') as [L|[L|L]].
    - right. left. assert (C : (i' = i + 1)%Z).
      { destruct (Z.eq_dec i' (i + 1)) as [e|e]; [exact e|]. exfalso. pose proof (I (i + 1)%Z i' ltac:(lia) ltac:(lia) ltac:(lia)) as C. nra. }
      subst i'. split; [reflexivity|]. split; nra.
    - left. subst i'. split; [reflexivity|]. nra.
    - right. right. assert (C : (i = i' + 1)%Z).
      { destruct (Z.eq_dec i (i' + 1)) as [e|e]; [exact e|]. exfalso. pose proof (I (i' + 1)%Z i ltac:(lia) ltac:(lia) ltac:(lia)) as C. nra. }
      subst i. split; [reflexivity|]. split; nra. }
  destruct M as [M|M]; [exact (G f M E)|]. apply (G (fun k => - f k)); [intros u v U1 U2 U3; specialize (M u v U1 U2 U3); lra|lra].
Qed.
Lemma same_mix (g : Z -> R) i i' a b : (i = i' /\ a = b) \/ ((i' = i + 1)%Z /\ a = 1 /\ b = 0) \/ ((i = i' + 1)%Z /\ a = 0 /\ b = 1) ->
  g i + a * (g (i + 1)%Z - g i) = g i' + b * (g (i' + 1)%Z - g i').
Proof. intros [[-> ->]|[[-> [-> ->]]|[-> [-> ->]]]]; ring. Qed.

Lemma axis_step n f i : monotone_axis n f -> (0 <= i < n - 1)%Z -> f (i + 0)%Z <> f (i + 1)%Z.
Proof. intros [M|M] Hi; specialize (M (i + 0)%Z (i + 1)%Z ltac:(lia) ltac:(lia) ltac:(lia)); lra. Qed.

Section Grid.
Variables x y z : mat R.
Notation cols := (m_cols R z).
Notation rows := (m_rows R z).
Variables xs ys : Z -> R.
Hypothesis MX : monotone_axis cols xs.
Hypothesis MY : monotone_axis rows ys.
Hypothesis AX : forall k, in_mesh cols rows k -> m_at R x k = xs (col_of cols k) /\ m_at R y k = ys (row_of cols k).
Definition one (b : bool) : Z := if b then 1%Z else 0%Z.
Lemma node_in a b : (0 <= a < cols)%Z -> (0 <= b < rows)%Z -> in_mesh cols rows (a + b * cols)%Z /\ col_of cols (a + b * cols)%Z = a /\ row_of cols (a + b * cols)%Z = b.
Proof.
  exact (at_coords cols rows a b).
Qed.
Section Cell.
Variables i j : Z.
Hypothesis Hi : (0 <= i < cols - 1)%Z.
Hypothesis Hj : (0 <= j < rows - 1)%Z.
Notation c := (cell_of x y z i j).
Definition cx (b : bool) : R := xs (i + one b)%Z.
Definition cy (b : bool) : R := ys (j + one b)%Z.
Lemma cell_x p : lon c p = cx (fst p).
Proof.
  destruct p as [a b]. unfold lon, cell_of, cx. cbn [fst snd]. change (if a then 1%Z else 0%Z) with (one a). change (if b then 1%Z else 0%Z) with (one b).
  assert (A : (0 <= one a <= 1)%Z) by (destruct a; cbn; lia). assert (B : (0 <= one b <= 1)%Z) by (destruct b; cbn; lia).
  destruct (node_in (i + one a) (j + one b) ltac:(lia) ltac:(lia)) as (N1 & N2 & N3). rewrite (proj1 (AX _ N1)), N2. reflexivity.
Qed.
Lemma cell_y p : lat c p = cy (snd p).
Proof.
  destruct p as [a b]. unfold lat, cell_of, cy. cbn [fst snd]. change (if a then 1%Z else 0%Z) with (one a). change (if b then 1%Z else 0%Z) with (one b).
  assert (A : (0 <= one a <= 1)%Z) by (destruct a; cbn; lia). assert (B : (0 <= one b <= 1)%Z) by (destruct b; cbn; lia).
  destruct (node_in (i + one a) (j + one b) ltac:(lia) ltac:(lia)) as (N1 & N2 & N3). rewrite (proj2 (AX _ N1)), N3. reflexivity.
Qed.
Lemma cell_nx : cx false <> cx true.
Proof. exact (axis_step cols xs i MX Hi). Qed.
Lemma cell_ny : cy false <> cy true.
Proof. exact (axis_step rows ys j MY Hj). Qed.
(** The points of a line are in the cell *)
Lemma line_inside level u v p : line_in_cell c level u v -> on_line p u v ->
  exists xi eta, 0 <= xi <= 1 /\ 0 <= eta <= 1 /\ p = (xs i + xi * (xs (i + 1)%Z - xs i), ys j + eta * (ys (j + 1)%Z - ys j)).
Proof.
  intros L (s & Hs & ->). destruct (line_rim c level u v L) as [Ru Rv].
  destruct (rim_local c cx cy cell_x cell_y false false u level Ru) as (a & b & Ha & Hb & -> & _).
  destruct (rim_local c cx cy cell_x cell_y false false v level Rv) as (a' & b' & Ha' & Hb' & -> & _). cbn [fst snd negb]. unfold cx, cy, one. rewrite !Z.add_0_r.
  exists (a + s * (a' - a)), (b + s * (b' - b)). split; [nra|]. split; [nra|]. f_equal; ring.
Qed.
Lemma rim_lat b eta p w : 0 <= eta <= 1 -> p = (xs (i + one b)%Z, ys j + eta * (ys (j + 1)%Z - ys j)) ->
  w = m_at R z (i + one b + j * cols)%Z + eta * (m_at R z (i + one b + (j + 1) * cols)%Z - m_at R z (i + one b + j * cols)%Z) -> rim c p w.
Proof.
  intros H -> ->. exists (b, false), (b, true), eta. split; [left; split; [reflexivity|discriminate]|]. split; [exact H|]. rewrite !cell_x, !cell_y. cbn [fst snd]. unfold cx, cy, one. rewrite !Z.add_0_r.
  split; [f_equal; ring|]. unfold val, cell_of. cbn [fst snd]. rewrite !Z.add_0_r. reflexivity.
Qed.
Lemma rim_lon b xi p w : 0 <= xi <= 1 -> p = (xs i + xi * (xs (i + 1)%Z - xs i), ys (j + one b)%Z) ->
  w = m_at R z (i + (j + one b) * cols)%Z + xi * (m_at R z (i + 1 + (j + one b) * cols)%Z - m_at R z (i + (j + one b) * cols)%Z) -> rim c p w.
Proof.
  intros H -> ->. exists (false, b), (true, b), xi. split; [right; split; [discriminate|reflexivity]|]. split; [exact H|]. rewrite !cell_x, !cell_y. cbn [fst snd]. unfold cx, cy, one. rewrite !Z.add_0_r.
  split; [f_equal; ring|]. unfold val, cell_of. cbn [fst snd]. rewrite !Z.add_0_r. reflexivity.
Qed.
End Cell.
(** Lines in two different cells meet on the rim of both *)
Lemma cells_meet i j i' j' level level' u v u' v' p : (0 <= i < cols - 1)%Z -> (0 <= j < rows - 1)%Z -> (0 <= i' < cols - 1)%Z -> (0 <= j' < rows - 1)%Z ->
  line_in_cell (cell_of x y z i j) level u v -> line_in_cell (cell_of x y z i' j') level' u' v' -> on_line p u v -> on_line p u' v' ->
  (i = i' /\ j = j') \/ exists w, rim (cell_of x y z i j) p w /\ rim (cell_of x y z i' j') p w.
Proof.
  intros Hi Hj Hi' Hj' L L' O O'. destruct (line_inside i j Hi Hj _ _ _ _ L O) as (a & b & Ha & Hb & E). destruct (line_inside i' j' Hi' Hj' _ _ _ _ L' O') as (a' & b' & Ha' & Hb' & E').
  assert (E1 : xs i + a * (xs (i + 1)%Z - xs i) = xs i' + a' * (xs (i' + 1)%Z - xs i')) by congruence. assert (E2 : ys j + b * (ys (j + 1)%Z - ys j) = ys j' + b' * (ys (j' + 1)%Z - ys j')) by congruence.
  destruct (axis_meet _ _ _ _ _ _ MX Hi Hi' Ha Ha' E1) as [[-> ->]|H1].
  - destruct (axis_meet _ _ _ _ _ _ MY Hj Hj' Hb Hb' E2) as [[-> ->]|H2]; [left; split; reflexivity|right].
    assert (W : exists m m', (j + one m = j' + one m')%Z /\ ys j + b * (ys (j + 1)%Z - ys j) = ys (j + one m)%Z /\ ys j' + b' * (ys (j' + 1)%Z - ys j') = ys (j' + one m')%Z).
    { destruct H2 as [[-> [-> ->]]|[-> [-> ->]]]; [exists true, false|exists false, true]; cbn [one]; rewrite ?Z.add_0_r; (split; [lia|]); split; ring. }
    destruct W as (m & m' & W0 & W1 & W2). rewrite W1 in E. rewrite W2 in E'. eexists. split; [exact (rim_lon i' j Hi' Hj m a' _ _ Ha E eq_refl)|]. apply (rim_lon i' j' Hi' Hj' m' a' _ _ Ha' E'). rewrite W0. reflexivity.
  - right. assert (W : exists m m', (i + one m = i' + one m')%Z /\ xs i + a * (xs (i + 1)%Z - xs i) = xs (i + one m)%Z /\ xs i' + a' * (xs (i' + 1)%Z - xs i') = xs (i' + one m')%Z).
    { destruct H1 as [[-> [-> ->]]|[-> [-> ->]]]; [exists true, false|exists false, true]; cbn [one]; rewrite ?Z.add_0_r; (split; [lia|]); split; ring. }
    destruct W as (m & m' & W0 & W1 & W2). rewrite W1 in E. rewrite W2 in E'. eexists. split; [exact (rim_lat i j Hi Hj m b _ _ Hb E eq_refl)|]. apply (rim_lat i' j' Hi' Hj' m' b' _ _ Hb' E'). rewrite W0.
    apply (same_mix (fun r => m_at R z (i' + one m' + r * cols)%Z) j j' b b'). exact (axis_meet _ _ _ _ _ _ MY Hj Hj' Hb Hb' E2).
Qed.
End Grid.

(** C118: the contours of two different levels have no point in common. *)
Theorem C118_levels_never_meet : forall fuel fuel' mem mem' x y z level level' segments codes segments' codes', meshed x y z -> with_axes x y z -> enough z fuel -> enough z fuel' ->
  extractR fuel mem x y z level = Ok (segments, codes) -> extractR fuel' mem' x y z level' = Ok (segments', codes') -> level <> level' ->
  forall u v u' v' p, line segments u v -> line segments' u' v' -> on_line p u v -> on_line p u' v' -> False.
Proof.
  intros fuel fuel' mem mem' x y z level level' segments codes segments' codes' M (xs & ys & MX & MY & AX) F F' E E' N u v u' v' p L L' O O'.
  apply (C112_lines_cell_by_cell _ _ _ _ _ _ _ _ M F E) in L. apply (C112_lines_cell_by_cell _ _ _ _ _ _ _ _ M F' E') in L'.
  destruct L as (i & j & Hi & Hj & L). destruct L' as (i' & j' & Hi' & Hj' & L').
  assert (CX : forall i j, (0 <= i < m_cols R z - 1)%Z -> (0 <= j < m_rows R z - 1)%Z -> forall lv u v p w, line_in_cell (cell_of x y z i j) lv u v -> on_line p u v -> rim (cell_of x y z i j) p w -> w = lv).
  { intros a b Ha Hb lv q r s w. exact (line_on_rim _ _ _ (cell_x x y z xs ys AX a b Ha Hb) (cell_y x y z xs ys AX a b Ha Hb) (cell_nx z xs MX a Ha) (cell_ny z ys MY b Hb) lv q r s w). }
  destruct (cells_meet x y z xs ys MX MY AX i j i' j' level level' u v u' v' p Hi Hj Hi' Hj' L L' O O') as [[<- <-]|(w & R1 & R2)].
  - pose proof (fun l l' => levels_apart _ _ _ (cell_x x y z xs ys AX i j Hi Hj) (cell_y x y z xs ys AX i j Hi Hj) (cell_nx z xs MX i Hi) (cell_ny z ys MY j Hj) l l') as A.
    destruct (Rtotal_order level level') as [T|[T|T]]; [exact (A _ _ _ _ _ _ _ T L L' O O')|exact (N T)|exact (A _ _ _ _ _ _ _ T L' L O' O)].
  - apply N. rewrite <- (CX i j Hi Hj _ _ _ _ _ L O R1). exact (CX i' j' Hi' Hj' _ _ _ _ _ L' O' R2).
Qed.
Print Assumptions C118_levels_never_meet.

(** C119: two lines of the contours of one level which no grid value takes are the same line, or they have at most an end in common. *)
Theorem C119_lines_meet_in_ends_only : forall fuel mem x y z level segments codes, meshed x y z -> with_axes x y z -> misses_the_level z level -> enough z fuel ->
  extractR fuel mem x y z level = Ok (segments, codes) ->
  forall u v u' v' p, line segments u v -> line segments u' v' -> on_line p u v -> on_line p u' v' ->
  ((u' = u /\ v' = v) \/ (u' = v /\ v' = u)) \/ ((p = u \/ p = v) /\ (p = u' \/ p = v')).
Proof.
  intros fuel mem x y z level segments codes M (xs & ys & MX & MY & AX) Ms F E u v u' v' p L L' O O'.
  apply (C112_lines_cell_by_cell _ _ _ _ _ _ _ _ M F E) in L. apply (C112_lines_cell_by_cell _ _ _ _ _ _ _ _ M F E) in L'.
  destruct L as (i & j & Hi & Hj & L). destruct L' as (i' & j' & Hi' & Hj' & L').
  assert (Ne : forall i j, (0 <= i < m_cols R z - 1)%Z -> (0 <= j < m_rows R z - 1)%Z -> forall a, val (cell_of x y z i j) a <> level).
  { intros a b Ha Hb [g h]. unfold val, cell_of. cbn [fst snd]. apply Ms. apply node_in; [destruct g; lia|destruct h; lia]. }
  assert (CX : forall i j, (0 <= i < m_cols R z - 1)%Z -> (0 <= j < m_rows R z - 1)%Z -> forall u v p w, line_in_cell (cell_of x y z i j) level u v -> on_line p u v -> rim (cell_of x y z i j) p w -> p = u \/ p = v).
  { intros a b Ha Hb q r s w. exact (line_ends _ _ _ (cell_x x y z xs ys AX a b Ha Hb) (cell_y x y z xs ys AX a b Ha Hb) (cell_nx z xs MX a Ha) (cell_ny z ys MY b Hb) level q r s w (Ne a b Ha Hb)). }
  destruct (cells_meet x y z xs ys MX MY AX i j i' j' level level u v u' v' p Hi Hj Hi' Hj' L L' O O') as [[<- <-]|(w & R1 & R2)].
  - exact (lines_apart _ _ _ (cell_x x y z xs ys AX i j Hi Hj) (cell_y x y z xs ys AX i j Hi Hj) (cell_nx z xs MX i Hi) (cell_ny z ys MY j Hj) level u v u' v' p (Ne i j Hi Hj) L L' O O').
  - right. split; [exact (CX i j Hi Hj _ _ _ _ L O R1)|exact (CX i' j' Hi' Hj' _ _ _ _ L' O' R2)].
Qed.
Print Assumptions C119_lines_meet_in_ends_only.

(** *** The points of the contours *)
Lemma axis_inside n f i k a : monotone_axis n f -> (0 <= i < n - 1)%Z -> (0 <= k < n)%Z -> 0 < a < 1 -> f k <> f i + a * (f (i + 1)%Z - f i).
Proof.
  intros M Hi Hk Ha E. destruct M as [M|M]; pose proof (M i (i + 1)%Z ltac:(lia) ltac:(lia) ltac:(lia)) as A; destruct (Z_le_gt_dec k i) as [C|C].
  - destruct (Z.eq_dec k i) as [->|N]; [nra|]. pose proof (M k i ltac:(lia) ltac:(lia) ltac:(lia)). nra.
  - destruct (Z.eq_dec k (i + 1)) as [->|N]; [nra|]. pose proof (M (i + 1)%Z k ltac:(lia) ltac:(lia) ltac:(lia)). nra.
  - destruct (Z.eq_dec k i) as [->|N]; [nra|]. pose proof (M k i ltac:(lia) ltac:(lia) ltac:(lia)). nra.
  - destruct (Z.eq_dec k (i + 1)) as [->|N]; [nra|]. pose proof (M (i + 1)%Z k ltac:(lia) ltac:(lia) ltac:(lia)). nra.
Qed.
Lemma axis_inj n f i k : monotone_axis n f -> (0 <= i < n)%Z -> (0 <= k < n)%Z -> f i = f k -> i = k.
Proof. intros M Hi Hk E. destruct (Z.lt_trichotomy i k) as [L|[L|L]]; [|exact L|]; exfalso; destruct M as [M|M]; [pose proof (M i k ltac:(lia) L ltac:(lia))|pose proof (M i k ltac:(lia) L ltac:(lia))|pose proof (M k i ltac:(lia) L ltac:(lia))|pose proof (M k i ltac:(lia) L ltac:(lia))]; lra. Qed.
Section Points.
Variables x y z : mat R.
Notation cols := (m_cols R z).
Notation rows := (m_rows R z).
Variables xs ys : Z -> R.
Hypothesis C1 : (1 <= cols)%Z.
Hypothesis MX : monotone_axis cols xs.
Hypothesis MY : monotone_axis rows ys.
Hypothesis AX : forall k, in_mesh cols rows k -> m_at R x k = xs (col_of cols k) /\ m_at R y k = ys (row_of cols k).
Variable level : R.
Hypothesis Ms : misses_the_level z level.
Notation V := (vertex R Rplus Rminus Rmult Rdiv x y z level).
Definition on_row (e : Z * Z) (v : R * R) : Prop := exists i r a, 0 < a < 1 /\ (0 <= i < cols - 1)%Z /\ (0 <= r < rows)%Z /\ v = (xs i + a * (xs (i + 1)%Z - xs i), ys r) /\ same_side e (i + r * cols, i + 1 + r * cols)%Z.
Definition on_column (e : Z * Z) (v : R * R) : Prop := exists i r a, 0 < a < 1 /\ (0 <= i < cols)%Z /\ (0 <= r < rows - 1)%Z /\ v = (xs i, ys r + a * (ys (r + 1)%Z - ys r)) /\ same_side e (i + r * cols, i + (r + 1) * cols)%Z.
Lemma point_placed e : side cols rows e -> crossed (above_of R Rgtb z level) e -> on_row e (V e) \/ on_column e (V e).
Proof.
  intros Se Ce. pose proof (vertex_meets x y z level e Ce) as (t & Et & Bt). destruct e as [p q]. cbn [fst snd] in *. destruct Se as (Ip & Iq & Ad).
  assert (T : 0 < t < 1).
  { pose proof (Ms p Ip) as Np. pose proof (Ms q Iq) as Nq. unfold crossed, above_of, Rgtb in Ce. cbn [fst snd] in Ce. split; apply Rnot_le_lt; intro T;
      (destruct (Rlt_dec level (m_at R z p)) as [A|A], (Rlt_dec level (m_at R z q)) as [B|B]; try (apply Ce; reflexivity); nra). }
  unfold between in Bt. rewrite Bt. destruct (AX p Ip) as [Xp Yp]. destruct (AX q Iq) as [Xq Yq]. rewrite Xp, Xq, Yp, Yq.
  destruct (coords cols rows p C1 Ip) as (P1 & P2 & P3). destruct (coords cols rows q C1 Iq) as (Q1 & Q2 & Q3).
  set (a := col_of cols p) in *. set (b := row_of cols p) in *. set (a' := col_of cols q) in *. set (b' := row_of cols q) in *. clearbody a b a' b'.
  destruct Ad as [[-> Ad]|[-> Ad]].
  - left. destruct (Z_lt_ge_dec a a') as [L|L].
    + assert (a' = a + 1)%Z by lia. subst a'. exists a, b', t. split; [exact T|]. split; [lia|]. split; [exact Q2|]. split; [f_equal; ring|]. left. rewrite P3, Q3. reflexivity.
    + assert (a = a' + 1)%Z by lia. subst a. exists a', b', (1 - t). split; [lra|]. split; [lia|]. split; [exact Q2|]. split; [f_equal; ring|]. right. cbn [fst snd]. rewrite P3, Q3. reflexivity.
  - right. destruct (Z_lt_ge_dec b b') as [L|L].
    + assert (b' = b + 1)%Z by lia. subst b'. exists a', b, t. split; [exact T|]. split; [exact Q1|]. split; [lia|]. split; [f_equal; ring|]. left. rewrite P3, Q3. reflexivity.
    + assert (b = b' + 1)%Z by lia. subst b. exists a', b', (1 - t). split; [lra|]. split; [exact Q1|]. split; [lia|]. split; [f_equal; ring|]. right. cbn [fst snd]. rewrite P3, Q3. reflexivity.
Qed.
Lemma same_side_via e f g : same_side e g -> same_side f g -> same_side e f.
Proof. destruct e as [p q], f as [p' q'], g as [r s]. unfold same_side. cbn [fst snd]. intros [A|A] [B|B]; injection A as -> ->; injection B as -> ->; auto. Qed.
Lemma points_apart e f : side cols rows e -> crossed (above_of R Rgtb z level) e -> side cols rows f -> crossed (above_of R Rgtb z level) f -> V e = V f -> same_side e f.
Proof.
  intros Se Ce Sf Cf E. destruct (point_placed e Se Ce) as [(i & r & a & Ha & Hi & Hr & Ee & S1)|(i & r & a & Ha & Hi & Hr & Ee & S1)], (point_placed f Sf Cf) as [(i' & r' & a' & Ha' & Hi' & Hr' & Ef & S2)|(i' & r' & a' & Ha' & Hi' & Hr' & Ef & S2)];
    rewrite E, Ef in Ee; injection Ee as E1 E2.
  - apply (axis_inj _ _ _ _ MY Hr' Hr) in E2. subst r'. destruct (axis_meet cols xs i' i a' a MX Hi' Hi ltac:(lra) ltac:(lra) E1) as [[-> _]|[(_ & B & _)|(_ & B & _)]]; [|lra|lra]. exact (same_side_via _ _ _ S1 S2).
  - exfalso. exact (axis_inside cols xs i i' a MX Hi Hi' Ha E1).
  - exfalso. apply (axis_inside cols xs i' i a' MX Hi' Hi Ha'). symmetry. exact E1.
  - apply (axis_inj _ _ _ _ MX Hi' Hi) in E1. subst i'. destruct (axis_meet rows ys r' r a' a MY Hr' Hr ltac:(lra) ltac:(lra) E2) as [[-> _]|[(_ & B & _)|(_ & B & _)]]; [|lra|lra]. exact (same_side_via _ _ _ S1 S2).
Qed.
End Points.
Lemma same_sideb_iff e f : same_sideb e f = true <-> same_side e f.
Proof.
  destruct e as [a b], f as [a' b']. unfold same_sideb, same_side. cbn [fst snd]. rewrite orb_true_iff, !andb_true_iff, !Z.eqb_eq. split; [intros [[-> ->]|[-> ->]]; auto|intros [H|H]; injection H as -> ->; auto].
Qed.
Lemma once_NoDup {A} (V : Z * Z -> A) l : (forall e f, In e l -> In f l -> V e = V f -> same_sideb e f = true) -> (forall e, In e l -> (length (filter (same_sideb e) l) <= 1)%nat) -> NoDup (map V l).
Proof.
  induction l as [|e l IH]; intros I H; [constructor|]. cbn [map]. constructor.
  - intro K. apply in_map_iff in K as (f & Ef & Hf). specialize (H e (or_introl eq_refl)). cbn [filter] in H. assert (S0 : same_sideb e e = true) by (apply same_sideb_iff; left; reflexivity). rewrite S0 in H. cbn [length] in H.
    assert (Q : In f (filter (same_sideb e) l)) by (apply filter_In; split; [exact Hf|apply I; [left; reflexivity|right; exact Hf|symmetry; exact Ef]]). destruct (filter (same_sideb e) l); [destruct Q|cbn in H; lia].
  - apply IH; [intros a b Ha Hb; apply I; right; assumption|]. intros a Ha. specialize (H a (or_intror Ha)). cbn [filter] in H. destruct (same_sideb a e); cbn [length] in H; lia.
Qed.
Definition strip (c : list (Z * Z)) : list (Z * Z) := if repeats c then removelast c else c.
Lemma visits_strip e curves : total_visits e curves = length (filter (same_sideb e) (concat (map strip curves))).
Proof. induction curves as [|c l IH]; [reflexivity|]. cbn [map concat total_visits fold_right]. rewrite filter_app, app_length. unfold total_visits in IH. rewrite <- IH. reflexivity. Qed.
Lemma strip_in c e : In e (strip c) -> In e c.
Proof. unfold strip. destruct (repeats c); [|auto]. induction c as [|a c IH]; [intros []|]. cbn [removelast]. destruct c as [|b c]; [intros []|]. intros [->|H]; [left; reflexivity|right; apply IH; exact H]. Qed.
Lemma repeats_iff c : (2 <= length c)%nat -> repeats c = true <-> closed_curve c.
Proof.
  intro L. destruct c as [|e l]; [cbn in L; lia|]. destruct l as [|g l] using rev_ind; [cbn in L; lia|]. clear IHl. unfold repeats. rewrite last_last.
  split.
  - intro H. apply andb_true_iff in H as [A B]. apply Z.eqb_eq in A, B. assert (e = g) by (destruct e, g; cbn in *; congruence). subst g. exists e. split; [exists (l ++ [e]); reflexivity|exists (e :: l); reflexivity].
  - intros (h & (l1 & E1) & (l2 & E2)). injection E1 as <- _. change (e :: l ++ [g]) with ((e :: l) ++ [g]) in E2. apply app_inj_tail in E2 as [_ ->]. rewrite !Z.eqb_refl. reflexivity.
Qed.

(** *** C119 *)
(** The points of all contours of a level which no grid value takes are different, except that a closed contour ends where it begins. *)
Theorem C119_no_point_twice : forall fuel mem x y z level segments codes, meshed x y z -> with_axes x y z -> misses_the_level z level -> (2 <= m_rows R z)%Z -> (2 <= m_cols R z)%Z -> enough z fuel ->
  extractR fuel mem x y z level = Ok (segments, codes) ->
  exists outlines points, segments = map (Verts R) outlines /\ Forall2 points_once outlines points /\ NoDup (concat points).
Proof.
  intros fuel mem x y z level segments codes M (xs & ys & MX & MY & AX) Ms R2 C2 F E. unfold extractR in E.
  destruct (master R Rplus Rminus Rmult Rdiv 4 Rgtb Reqb fuel mem x y z level M F) as (T & curves & cd & E' & _ & _ & _ & Fc & Tv & _). specialize (Tv C2 R2). rewrite E' in E. injection E as <- _. clear E'.
  set (V := vertex R Rplus Rminus Rmult Rdiv x y z level) in *. rewrite Forall_forall in Fc. assert (C1 : (1 <= m_cols R z)%Z) by lia.
  pose proof (points_apart x y z xs ys C1 MX MY AX level Ms) as Ap. fold V in Ap.
  exists (map (map V) curves), (map (fun c => map V (strip c)) curves). split; [unfold drawn; rewrite map_map; reflexivity|]. split.
  - clear Tv T. induction curves as [|c l IH]; [constructor|]. cbn [map]. constructor; [|apply IH; intros; apply Fc; right; assumption].
    pose proof (Fc c (or_introl eq_refl)) as Ic. pose proof (cv_length _ _ _ _ Ic) as Lc. unfold points_once, strip. destruct (repeats c) eqn:Rp.
    + left. apply repeats_iff in Rp; [|exact Lc]. split; [apply closed_map; assumption|]. destruct Rp as (e & _ & (l2 & ->)). rewrite removelast_last, map_app. exists (V e). reflexivity.
    + right. split; [|reflexivity]. intros (v & l1 & l2 & E1 & E2 & _).
      destruct (cv_ends _ _ _ _ Ic) as [Cc|(e & f & (m1 & B1) & (m2 & B2) & _ & _ & NS)]; [apply repeats_iff in Cc; [congruence|exact Lc]|]. apply NS.
      assert (Ie : In e c) by (rewrite B1; left; reflexivity). assert (If : In f c) by (rewrite B2; apply in_or_app; right; left; reflexivity).
      destruct (cv_sides _ _ _ _ Ic e Ie) as [Se Ce]. destruct (cv_sides _ _ _ _ Ic f If) as [Sf Cf]. apply Ap; try assumption.
      rewrite B1 in E1. cbn [map] in E1. injection E1 as E1 _. rewrite B2, map_app in E2. cbn [map] in E2. apply app_inj_tail in E2 as [_ E2]. congruence.
  - rewrite <- (map_map strip (map V)), <- concat_map. assert (In1 : forall e, In e (concat (map strip curves)) -> exists c, In c curves /\ In e c).
    { intros e He. apply in_concat in He as (l & Hl & He). apply in_map_iff in Hl as (c & <- & Hc). exists c. split; [exact Hc|apply strip_in; exact He]. }
    apply once_NoDup.
    + intros e f He Hf Ev. apply same_sideb_iff. destruct (In1 e He) as (c & Hc & Ie). destruct (In1 f Hf) as (d & Hd & Jf). destruct (cv_sides _ _ _ _ (Fc c Hc) e Ie). destruct (cv_sides _ _ _ _ (Fc d Hd) f Jf). apply Ap; assumption.
    + intros e He. destruct (In1 e He) as (c & Hc & Ie). destruct (cv_sides _ _ _ _ (Fc c Hc) e Ie) as [Se Ce]. rewrite <- visits_strip, (Tv e Se Ce). lia.
Qed.
Print Assumptions C119_no_point_twice.

(** The peak of height 1 in the middle of nine points has contours of the levels 1/2 and 1/4, which no grid value takes. *)
Lemma peak_line t : 0 < t < 1 -> line_in_cell (cell_of peakX peakY peakZ 0 0) t (t, 1) (1, t).
Proof.
  intro T. exists (true, true), (false, true), (true, true), (true, false). unfold met, val, lon, lat, cell_of, next_to. cbn.
  split; [split; [right; split; [discriminate|reflexivity]|split; [lra|exists (1 - t); split; [lra|f_equal; lra]]]|].
  split; [split; [left; split; [reflexivity|discriminate]|split; [lra|exists (1 - t); split; [lra|f_equal; lra]]]|].
  split; [intros [_ X]; discriminate X|]. split; [intros [X _]; discriminate X|].
  intro G. destruct (G (false, false) (true, false)) as [_ G1]; [right; split; [discriminate|reflexivity]|]. cbn in G1. exfalso. assert (0 > t) by (apply G1; lra). lra.
Qed.
Lemma peak_axes : with_axes peakX peakY peakZ.
Proof.
  exists IZR, IZR. split; [left; intros; apply IZR_lt; assumption|]. split; [left; intros; apply IZR_lt; assumption|]. intros k _. split; reflexivity.
Qed.
Example C118_case : meshed peakX peakY peakZ /\ with_axes peakX peakY peakZ /\ enough peakZ 60 /\ 1 / 2 <> 1 / 4 /\
  exists s c s' c', extractR 60 (fun _ => blank) peakX peakY peakZ (1 / 2) = Ok (s, c) /\ extractR 60 (fun _ => blank) peakX peakY peakZ (1 / 4) = Ok (s', c') /\ line s (1 / 2, 1) (1, 1 / 2) /\ line s' (1 / 4, 1) (1, 1 / 4).
Proof.
  assert (M : meshed peakX peakY peakZ) by (unfold meshed; cbn; lia). assert (F : enough peakZ 60) by (unfold enough; cbn; lia).
  split; [exact M|]. split; [exact peak_axes|]. split; [exact F|]. split; [lra|].
  destruct (C64_tracing_stays_inside_the_arrays R Rplus Rminus Rmult Rdiv 4 Rgtb Reqb 60 (fun _ => blank) _ _ _ (1 / 2) M F) as [s [c E]].
  destruct (C64_tracing_stays_inside_the_arrays R Rplus Rminus Rmult Rdiv 4 Rgtb Reqb 60 (fun _ => blank) _ _ _ (1 / 4) M F) as [s' [c' E']].
  exists s, c, s', c'. split; [exact E|]. split; [exact E'|]. split.
  - apply (C112_lines_cell_by_cell _ _ _ _ _ _ _ _ M F E). exists 0%Z, 0%Z. split; [cbn; lia|]. split; [cbn; lia|]. apply peak_line. lra.
  - apply (C112_lines_cell_by_cell _ _ _ _ _ _ _ _ M F E'). exists 0%Z, 0%Z. split; [cbn; lia|]. split; [cbn; lia|]. apply peak_line. lra.
Qed.
Example C119_case : meshed peakX peakY peakZ /\ with_axes peakX peakY peakZ /\ misses_the_level peakZ (1 / 2) /\ (2 <= m_rows R peakZ)%Z /\ (2 <= m_cols R peakZ)%Z /\ enough peakZ 60 /\
  exists s c, extractR 60 (fun _ => blank) peakX peakY peakZ (1 / 2) = Ok (s, c) /\ line s (1 / 2, 1) (1, 1 / 2) /\ on_line (1, 1 / 2) (1 / 2, 1) (1, 1 / 2).
Proof.
  destruct C118_case as (M & A & F & _ & s & c & _ & _ & E & _ & L & _). split; [exact M|]. split; [exact A|]. split; [intros k _; cbn; destruct (k =? 4)%Z; lra|]. split; [cbn; lia|]. split; [cbn; lia|]. split; [exact F|].
  exists s, c. split; [exact E|]. split; [exact L|]. exists 1. split; [lra|]. cbn. f_equal; lra.
Qed.

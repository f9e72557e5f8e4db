(** C112: the lines drawn, cell by cell *)
From Coq Require Import Lia Reals Lra.
From Verif Require Import M_Base M_Cntr M_Extract S_Cntr S_Lines S_Lines2 P_Cntr P_Lines.
Local Open Scope Z_scope.

Definition b2 (b : bool) : Z := if b then 1 else 0.
Definition spot (cols : Z) (q : Z * Z) (p : place) : Z := corner cols q (b2 (fst p)) (b2 (snd p)).
Lemma spot_facts cols rows q p : is_cell cols rows q -> S_Cntr.in_mesh cols rows (spot cols q p) /\ col_of cols (spot cols q p) = fst q + b2 (fst p) /\ row_of cols (spot cols q p) = snd q + b2 (snd p).
Proof. intros [Hi Hj]. unfold spot, corner. apply at_coords; destruct p as [[|] [|]]; cbn [fst snd b2]; lia. Qed.
Lemma spot_inj cols rows q p p' : is_cell cols rows q -> spot cols q p = spot cols q p' -> p = p'.
Proof.
  intros H E. destruct (spot_facts cols rows q p H) as (_ & A & B). destruct (spot_facts cols rows q p' H) as (_ & A' & B'). rewrite E in A, B.
  destruct p as [[|] [|]], p' as [[|] [|]]; cbn [fst snd b2] in *; try reflexivity; lia.
Qed.
Lemma spot_of cols rows q k : 1 <= cols -> is_cell cols rows q -> S_Cntr.in_mesh cols rows k -> point_of_cell cols q k -> exists p, k = spot cols q p.
Proof.
  intros C H M [Pi Pj]. destruct (coords cols rows k C M) as (A & B & E). unfold spot, corner.
  assert (X : col_of cols k = fst q + 0 \/ col_of cols k = fst q + 1) by lia. assert (Y : row_of cols k = snd q + 0 \/ row_of cols k = snd q + 1) by lia.
  destruct X as [X|X], Y as [Y|Y]; [exists (false, false)|exists (false, true)|exists (true, false)|exists (true, true)]; cbn [fst snd b2]; rewrite E at 1; rewrite X, Y; ring.
Qed.
Lemma spot_side cols rows q p p' : is_cell cols rows q -> (side_of_cell cols rows q (spot cols q p, spot cols q p') <-> next_to p p').
Proof.
  intro H. destruct (spot_facts cols rows q p H) as (M & A & B). destruct (spot_facts cols rows q p' H) as (M' & A' & B').
  unfold side_of_cell, side, point_of_cell. cbn [fst snd]. rewrite A, B, A', B'. unfold next_to. destruct p as [[|] [|]], p' as [[|] [|]]; cbn [fst snd b2]; split; intro X;
    try (split; [exact H|]; split; [split; [exact M|]; split; [exact M'|]; lia|lia]);
    try (destruct X as (_ & (_ & _ & X) & _); exfalso; lia);
    try (destruct X as [[X1 X2]|[X1 X2]]; exfalso; congruence);
    try (left; split; congruence); try (right; split; congruence).
Qed.

Open Scope R_scope.
Section Cell.
Variables x y z : mat R.
Variable level : R.
Notation cols := (m_cols R z).
Notation rows := (m_rows R z).
Hypothesis C1 : (1 <= cols)%Z.
Variable q : Z * Z.
Hypothesis Hq : is_cell cols rows q.
Notation c := (cell_of x y z (fst q) (snd q)).
Lemma cell_val p : val c p = m_at R z (spot cols q p). Proof. destruct p as [[|] [|]]; reflexivity. Qed.
Lemma cell_lon p : lon c p = m_at R x (spot cols q p). Proof. destruct p as [[|] [|]]; reflexivity. Qed.
Lemma cell_lat p : lat c p = m_at R y (spot cols q p). Proof. destruct p as [[|] [|]]; reflexivity. Qed.
Lemma above_val p : above_of R Rgtb z level (spot cols q p) = true <-> val c p > level. Proof. rewrite cell_val. unfold above_of. rewrite Rgtb_true. lra. Qed.
Lemma above_val' p : above_of R Rgtb z level (spot cols q p) = false <-> val c p <= level. Proof. rewrite cell_val. unfold above_of. rewrite Rgtb_false. lra. Qed.
Lemma met_iff p p' u : met c level p p' u <-> side_of_cell cols rows q (spot cols q p, spot cols q p') /\ crossed (above_of R Rgtb z level) (spot cols q p, spot cols q p') /\ meets x y z level (spot cols q p, spot cols q p') u.
Proof.
  rewrite (spot_side _ _ _ _ _ Hq). unfold met, crossed, meets, between. cbn [fst snd]. rewrite !cell_val, !cell_lon, !cell_lat. unfold above_of.
  assert (K : (Rgtb (m_at R z (spot cols q p)) level <> Rgtb (m_at R z (spot cols q p')) level) <-> (m_at R z (spot cols q p) > level /\ m_at R z (spot cols q p') <= level \/ m_at R z (spot cols q p) <= level /\ m_at R z (spot cols q p') > level)).
  { unfold Rgtb. destruct (Rlt_dec level (m_at R z (spot cols q p))), (Rlt_dec level (m_at R z (spot cols q p'))); split; intro X; try congruence; try lra. }
  rewrite K. tauto.
Qed.
Lemma ambiguous_iff : ambiguous cols (above_of R Rgtb z level) q <-> forall a b, next_to a b -> (val c a > level <-> val c b <= level).
Proof.
  assert (K : forall p, above_of R Rgtb z level (spot cols q p) = true \/ above_of R Rgtb z level (spot cols q p) = false) by (intro p; destruct (above_of _ _ _ _ _); auto).
  unfold ambiguous. change (corner cols q 0 0) with (spot cols q (false, false)). change (corner cols q 1 1) with (spot cols q (true, true)). change (corner cols q 1 0) with (spot cols q (true, false)). change (corner cols q 0 1) with (spot cols q (false, true)).
  split.
  - intros (A & B & D) a b N. rewrite <- above_val, <- above_val'.
    destruct a as [[|] [|]], b as [[|] [|]]; unfold next_to in N; cbn [fst snd] in N; try (exfalso; intuition congruence);
    destruct (above_of R Rgtb z level (spot cols q (false, false))), (above_of R Rgtb z level (spot cols q (true, true))), (above_of R Rgtb z level (spot cols q (true, false))), (above_of R Rgtb z level (spot cols q (false, true))); try congruence; split; congruence.
  - intro H. assert (H' : forall a b, next_to a b -> (above_of R Rgtb z level (spot cols q a) = true <-> above_of R Rgtb z level (spot cols q b) = false)) by (intros a b N; rewrite above_val, above_val'; exact (H a b N)). clear H.
    assert (H1 := H' (false, false) (true, false) (or_intror (conj (fun e : false = true => ltac:(discriminate e)) eq_refl))).
    assert (H2 := H' (false, false) (false, true) (or_introl (conj eq_refl (fun e : false = true => ltac:(discriminate e))))).
    assert (H3 := H' (true, true) (false, true) (or_intror (conj (fun e : true = false => ltac:(discriminate e)) eq_refl))).
    assert (H4 := H' (true, false) (false, false) (or_intror (conj (fun e : true = false => ltac:(discriminate e)) eq_refl))).
    clear H' K. destruct H1 as [H1 H1'], H2 as [H2 H2'], H3 as [H3 H3'], H4 as [H4 H4'].
    destruct (above_of R Rgtb z level (spot cols q (false, false))), (above_of R Rgtb z level (spot cols q (true, true))), (above_of R Rgtb z level (spot cols q (true, false))), (above_of R Rgtb z level (spot cols q (false, true)));
    repeat match goal with H : ?a = ?a -> _ |- _ => specialize (H eq_refl) end; try discriminate; repeat split; try reflexivity; discriminate.
Qed.
Lemma mean_iff : mean_above z level q = false <-> mean c <= level.
Proof. unfold mean_above. rewrite Rgtb_false. unfold mean. rewrite !cell_val. reflexivity. Qed.
Lemma mean_iff' : mean_above z level q = true <-> mean c > level.
Proof. unfold mean_above. rewrite Rgtb_true. unfold mean. rewrite !cell_val. unfold spot. cbn [fst snd b2]. lra. Qed.

Lemma joined_cell u v : line_in_cell c level u v <->
  exists e f, ~ same_side e f /\ crossed (above_of R Rgtb z level) e /\ crossed (above_of R Rgtb z level) f /\ side_of_cell cols rows q e /\ side_of_cell cols rows q f /\
    (ambiguous cols (above_of R Rgtb z level) q -> exists p, (p = fst e \/ p = snd e) /\ (p = fst f \/ p = snd f) /\ above_of R Rgtb z level p = negb (mean_above z level q)) /\
    meets x y z level e u /\ meets x y z level f v.
Proof.
  split.
  - intros (p1 & p2 & p3 & p4 & M1 & M2 & N1 & N2 & A). apply met_iff in M1. apply met_iff in M2. destruct M1 as (S1 & X1 & Y1). destruct M2 as (S2 & X2 & Y2).
    exists (spot cols q p1, spot cols q p2), (spot cols q p3, spot cols q p4). split.
    { unfold same_side. cbn [fst snd]. intros [E|E]; injection E as E1 E2; apply (spot_inj _ _ _ _ _ Hq) in E1, E2; subst; tauto. }
    split; [exact X1|]. split; [exact X2|]. split; [exact S1|]. split; [exact S2|]. split; [|split; assumption].
    intro Am. destruct (A (proj1 ambiguous_iff Am)) as (k & K1 & K2 & K3). exists (spot cols q k). cbn [fst snd]. split; [destruct K1; subst; tauto|]. split; [destruct K2; subst; tauto|].
    rewrite <- above_val, <- mean_iff in K3. destruct (above_of R Rgtb z level (spot cols q k)), (mean_above z level q); cbn; try reflexivity; exfalso; intuition congruence.
  - intros ([e1 e2] & [f1 f2] & NS & X1 & X2 & S1 & S2 & A & Y1 & Y2).
    pose proof S1 as (_ & (I1 & I2 & _) & P1 & P2). pose proof S2 as (_ & (J1 & J2 & _) & P3 & P4). cbn [fst snd] in P1, P2, P3, P4.
    destruct (spot_of _ _ _ _ C1 Hq I1 P1) as (p1 & ->). destruct (spot_of _ _ _ _ C1 Hq I2 P2) as (p2 & ->). destruct (spot_of _ _ _ _ C1 Hq J1 P3) as (p3 & ->). destruct (spot_of _ _ _ _ C1 Hq J2 P4) as (p4 & ->).
    exists p1, p2, p3, p4. split; [apply met_iff; auto|]. split; [apply met_iff; auto|]. split; [intros [-> ->]; apply NS; left; reflexivity|]. split; [intros [-> ->]; apply NS; right; reflexivity|].
    intro Am. destruct (A (proj2 ambiguous_iff Am)) as (k & K1 & K2 & K3). cbn [fst snd] in K1, K2.
    assert (exists p, k = spot cols q p) as (p & ->) by (destruct K1 as [->| ->]; eexists; reflexivity). exists p.
    split; [destruct K1 as [K1|K1]; apply (spot_inj _ _ _ _ _ Hq) in K1; tauto|]. split; [destruct K2 as [K2|K2]; apply (spot_inj _ _ _ _ _ Hq) in K2; tauto|].
    rewrite <- above_val, <- mean_iff. destruct (above_of R Rgtb z level (spot cols q p)), (mean_above z level q); cbn in K3; try discriminate K3; split; congruence.
Qed.
End Cell.

(** C112: the lines drawn for a level are exactly the lines of the level in the cells; those in a cell depend on its four corners only. *)
Theorem C112_lines_cell_by_cell : forall fuel mem x y z level segments codes, meshed x y z -> enough z fuel -> extractR fuel mem x y z level = Ok (segments, codes) ->
  forall u v, line segments u v <-> exists i j, (0 <= i < m_cols R z - 1)%Z /\ (0 <= j < m_rows R z - 1)%Z /\ line_in_cell (cell_of x y z i j) level u v.
Proof.
  intros fuel mem x y z level segments codes M F E u v. rewrite (C103_lines_drawn _ _ _ _ _ _ _ _ M F E). destruct M as (_ & _ & _ & _ & _ & C1). split.
  - intros (e & f & (N & X1 & X2 & q & Q1 & Q2 & A) & Y1 & Y2). pose proof Q1 as (Hq & _). exists (fst q), (snd q). split; [apply Hq|]. split; [apply Hq|].
    apply (joined_cell x y z level C1 q Hq). exists e, f. repeat (split; [assumption|]). assumption.
  - intros (i & j & Hi & Hj & L). assert (Hq : is_cell (m_cols R z) (m_rows R z) (i, j)) by (split; assumption). apply (joined_cell x y z level C1 (i, j) Hq) in L.
    destruct L as (e & f & N & X1 & X2 & S1 & S2 & A & Y1 & Y2). exists e, f. split; [|split; assumption]. split; [exact N|]. split; [exact X1|]. split; [exact X2|]. exists (i, j). auto.
Qed.
Print Assumptions C112_lines_cell_by_cell.

Lemma met_ext c c' level p q u : (forall p, c p = c' p) -> met c level p q u -> met c' level p q u.
Proof. intro P. unfold met, val, lon, lat. rewrite !P. auto. Qed.
Lemma line_ext c c' level u v : (forall p, c p = c' p) -> line_in_cell c level u v -> line_in_cell c' level u v.
Proof.
  intros P (p1 & p2 & p3 & p4 & M1 & M2 & N1 & N2 & A). exists p1, p2, p3, p4. split; [exact (met_ext _ _ _ _ _ _ P M1)|]. split; [exact (met_ext _ _ _ _ _ _ P M2)|]. split; [exact N1|]. split; [exact N2|].
  intro G. destruct A as (k & K1 & K2 & K3); [intros a b N; unfold val; rewrite !P; exact (G a b N)|]. exists k. split; [exact K1|]. split; [exact K2|]. unfold mean, val in *. rewrite <- !P. exact K3.
Qed.
Lemma cropped_cell i0 j0 w h x y z i j p : m_cols R x = m_cols R z -> m_cols R y = m_cols R z -> (0 <= i < w - 1 -> 0 <= j < h - 1)%Z -> (0 <= i < w - 1)%Z ->
  cell_of (cropped i0 j0 w h x) (cropped i0 j0 w h y) (cropped i0 j0 w h z) i j p = cell_of x y z (i0 + i) (j0 + j) p.
Proof.
  intros Ex Ey Hj Hi. specialize (Hj Hi). unfold cell_of, cropped. cbn [m_cols m_at]. rewrite Ex, Ey.
  set (a := if fst p then 1%Z else 0%Z). set (b := if snd p then 1%Z else 0%Z). assert (0 <= a <= 1)%Z by (unfold a; destruct (fst p); lia). assert (0 <= b <= 1)%Z by (unfold b; destruct (snd p); lia).
  destruct (at_coords w h (i + a) (j + b)) as (_ & A & B); [lia|lia|]. unfold col_of, row_of in A, B. rewrite A, B.
  replace (i0 + (i + a) + (j0 + (j + b)) * m_cols R z)%Z with (i0 + i + a + (j0 + j + b) * m_cols R z)%Z by ring. reflexivity.
Qed.
(** A part of the domain: the lines drawn for the part are exactly the lines of the whole in the cells of the part. *)
Theorem C112_part_of_the_domain : forall fuel mem fuel' mem' x y z level i0 j0 w h s c s' c', meshed x y z -> enough z fuel -> enough z fuel' ->
  (0 <= i0)%Z -> (0 <= j0)%Z -> (1 <= w)%Z -> (1 <= h)%Z -> (i0 + w <= m_cols R z)%Z -> (j0 + h <= m_rows R z)%Z ->
  extractR fuel mem x y z level = Ok (s, c) -> extractR fuel' mem' (cropped i0 j0 w h x) (cropped i0 j0 w h y) (cropped i0 j0 w h z) level = Ok (s', c') ->
  (forall u v, line s' u v <-> exists i j, (i0 <= i < i0 + w - 1)%Z /\ (j0 <= j < j0 + h - 1)%Z /\ line_in_cell (cell_of x y z i j) level u v) /\
  (forall u v, line s' u v -> line s u v).
Proof.
  intros fuel mem fuel' mem' x y z level i0 j0 w h s c s' c' M F F' H1 H2 H3 H4 H5 H6 E E'. pose proof M as (M1 & M2 & M3 & M4 & M5 & M6).
  assert (MC : meshed (cropped i0 j0 w h x) (cropped i0 j0 w h y) (cropped i0 j0 w h z)) by (unfold meshed, cropped; cbn; lia).
  assert (FC : enough (cropped i0 j0 w h z) fuel') by (unfold enough, cropped in *; cbn [m_cols m_rows]; assert (w * h <= m_cols R z * m_rows R z)%Z by (apply Z.mul_le_mono_nonneg; lia); lia).
  assert (K : forall u v, line s' u v <-> exists i j, (i0 <= i < i0 + w - 1)%Z /\ (j0 <= j < j0 + h - 1)%Z /\ line_in_cell (cell_of x y z i j) level u v).
  { intros u v. rewrite (C112_lines_cell_by_cell _ _ _ _ _ _ _ _ MC FC E'). cbn [m_cols m_rows cropped].
    assert (X : forall i j, (0 <= i < w - 1)%Z -> (0 <= j < h - 1)%Z -> line_in_cell (cell_of (cropped i0 j0 w h x) (cropped i0 j0 w h y) (cropped i0 j0 w h z) i j) level u v <-> line_in_cell (cell_of x y z (i0 + i) (j0 + j)) level u v).
    { intros i j Hi Hj. assert (P : forall p, cell_of (cropped i0 j0 w h x) (cropped i0 j0 w h y) (cropped i0 j0 w h z) i j p = cell_of x y z (i0 + i) (j0 + j) p) by (intro p; apply cropped_cell; auto).
      split; apply line_ext; [exact P|]. intro p. symmetry. apply P. }
    split.
    - intros (i & j & Hi & Hj & L). exists (i0 + i)%Z, (j0 + j)%Z. split; [lia|]. split; [lia|]. apply X; assumption.
    - intros (i & j & Hi & Hj & L). exists (i - i0)%Z, (j - j0)%Z. split; [lia|]. split; [lia|]. apply X; [lia|lia|]. replace (i0 + (i - i0))%Z with i by ring. replace (j0 + (j - j0))%Z with j by ring. exact L. }
  split; [exact K|]. intros u v L. apply K in L. destruct L as (i & j & Hi & Hj & L). apply (C112_lines_cell_by_cell _ _ _ _ _ _ _ _ M F E). exists i, j. split; [lia|]. split; [lia|exact L].
Qed.
Print Assumptions C112_part_of_the_domain.

(** A peak of height 1 in the middle of nine points: the level 1/2 crosses the lower left cell from (1/2, 1) to (1, 1/2), and that line is drawn for the lower left four points alone. *)
Example C112_case : meshed peakX peakY peakZ /\ enough peakZ 60 /\ (0 <= 0)%Z /\ (0 + 2 <= m_cols R peakZ)%Z /\ line_in_cell (cell_of peakX peakY peakZ 0 0) (1 / 2) (1 / 2, 1) (1, 1 / 2) /\
  exists s c, extractR 60 (fun _ => blank) (cropped 0 0 2 2 peakX) (cropped 0 0 2 2 peakY) (cropped 0 0 2 2 peakZ) (1 / 2) = Ok (s, c) /\ line s (1 / 2, 1) (1, 1 / 2).
Proof.
  assert (M : meshed peakX peakY peakZ) by (unfold meshed; cbn; lia). assert (F : enough peakZ 60) by (unfold enough; cbn; lia).
  assert (L : line_in_cell (cell_of peakX peakY peakZ 0 0) (1 / 2) (1 / 2, 1) (1, 1 / 2)).
  { exists (true, true), (false, true), (true, true), (true, false). unfold met, val, lon, lat, cell_of, next_to. cbn.
    split; [split; [right; split; [discriminate|reflexivity]|split; [lra|exists (1 / 2); split; [lra|f_equal; lra]]]|].
    split; [split; [left; split; [reflexivity|discriminate]|split; [lra|exists (1 / 2); split; [lra|f_equal; lra]]]|].
    split; [intros [_ X]; discriminate X|]. split; [intros [X _]; discriminate X|].
    intro G. destruct (G (false, false) (true, false)) as [_ G1]; [right; split; [discriminate|reflexivity]|]. cbn in G1. exfalso. assert (0 > 1 / 2) by (apply G1; lra). lra. }
  split; [exact M|]. split; [exact F|]. split; [lia|]. split; [cbn; lia|]. split; [exact L|].
  assert (M' : meshed (cropped 0 0 2 2 peakX) (cropped 0 0 2 2 peakY) (cropped 0 0 2 2 peakZ)) by (unfold meshed; cbn; lia). assert (F' : enough (cropped 0 0 2 2 peakZ) 60) by (unfold enough; cbn; lia).
  destruct (C64_tracing_stays_inside_the_arrays R Rplus Rminus Rmult Rdiv 4 Rgtb Reqb 60 (fun _ => blank) _ _ _ (1 / 2) M' F') as [s [c E]].
  destruct (C64_tracing_stays_inside_the_arrays R Rplus Rminus Rmult Rdiv 4 Rgtb Reqb 60 (fun _ => blank) _ _ _ (1 / 2) M F) as [s0 [c0 E0]].
  exists s, c. split; [exact E|]. destruct (C112_part_of_the_domain _ _ _ _ _ _ _ _ 0 0 2 2 _ _ _ _ M F F ltac:(lia) ltac:(lia) ltac:(lia) ltac:(lia) ltac:(cbn; lia) ltac:(cbn; lia) E0 E) as [K _].
  apply K. exists 0%Z, 0%Z. split; [lia|]. split; [lia|exact L].
Qed.

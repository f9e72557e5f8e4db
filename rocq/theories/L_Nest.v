(** Two closed curves on one mesh: one encloses the other, or they enclose different points. *)
From Coq Require Import ZArith List Bool Lia ZifyBool.
From Verif Require Import S_Cntr S_Turn P_Lines L_Loop.
Import ListNotations.
Local Open Scope Z_scope.

(** A set of points of the mesh which no side leaves is empty or everything *)
Section Connected.
Variables cols rows : Z.
Hypothesis C1 : 1 <= cols.
Variable P : Z -> bool.
Hypothesis Pc : forall p q, side cols rows (p, q) -> P p = P q.
Lemma along_row i j r : 0 <= i < cols -> 0 <= j < cols -> 0 <= r < rows -> P (i + r * cols) = P (j + r * cols).
Proof.
  intros Hi Hj Hr. enough (G : forall n, Z.of_nat n < cols -> P (Z.of_nat n + r * cols) = P (0 + r * cols)).
  { pose proof (G (Z.to_nat i)) as A. pose proof (G (Z.to_nat j)) as B. rewrite Z2Nat.id in A, B by lia. rewrite A, B by lia. reflexivity. }
  induction n as [|n IH]; intro L; [reflexivity|]. rewrite <- IH by lia. symmetry. apply Pc.
  destruct (at_coords cols rows (Z.of_nat n) r ltac:(lia) Hr) as (A1 & A2 & A3). destruct (at_coords cols rows (Z.of_nat (S n)) r ltac:(lia) Hr) as (B1 & B2 & B3).
  split; [exact A1|]. split; [exact B1|]. left. rewrite A2, A3, B2, B3. lia.
Qed.
Lemma along_column i r s : 0 <= i < cols -> 0 <= r < rows -> 0 <= s < rows -> P (i + r * cols) = P (i + s * cols).
Proof.
  intros Hi Hr Hs. enough (G : forall n, Z.of_nat n < rows -> P (i + Z.of_nat n * cols) = P (i + 0 * cols)).
  { pose proof (G (Z.to_nat r)) as A. pose proof (G (Z.to_nat s)) as B. rewrite Z2Nat.id in A, B by lia. rewrite A, B by lia. reflexivity. }
  induction n as [|n IH]; intro L; [reflexivity|]. rewrite <- IH by lia. symmetry. apply Pc.
  destruct (at_coords cols rows i (Z.of_nat n) Hi ltac:(lia)) as (A1 & A2 & A3). destruct (at_coords cols rows i (Z.of_nat (S n)) Hi ltac:(lia)) as (B1 & B2 & B3).
  split; [exact A1|]. split; [exact B1|]. right. rewrite A2, A3, B2, B3. lia.
Qed.
Lemma all_or_none p q : in_mesh cols rows p -> in_mesh cols rows q -> P p = P q.
Proof.
  intros Hp Hq. destruct (coords cols rows p C1 Hp) as (A & B & ->). destruct (coords cols rows q C1 Hq) as (D & E & ->). rewrite (along_row _ (col_of cols q)) by assumption. apply along_column; assumption.
Qed.
End Connected.

Section Shapes.
Variables cols rows : Z.
Hypothesis C1 : 1 <= cols.
Lemma same_sides e p q : same_side e (p, q) -> (fst e = p /\ snd e = q) \/ (fst e = q /\ snd e = p).
Proof. destruct e as [a b]. intros [H|H]; injection H as -> ->; cbn; auto. Qed.
Lemma mk_side p q : in_mesh cols rows p -> in_mesh cols rows q -> (row_of cols p = row_of cols q /\ Z.abs (col_of cols p - col_of cols q) = 1) \/ (col_of cols p = col_of cols q /\ Z.abs (row_of cols p - row_of cols q) = 1) -> side cols rows (p, q).
Proof. intros A B D. split; [exact A|]. split; [exact B|]. exact D. Qed.
(** Two different sides of a cell: they have a corner in common, or they are opposite *)
Definition meeting (q0 e f : Z * Z) : Prop := exists w pe pf w', same_side e (pe, w) /\ same_side f (pf, w) /\ side cols rows (pe, w) /\ side cols rows (pf, w) /\ side cols rows (pe, w') /\ side cols rows (pf, w') /\ pe <> pf /\ pe <> w /\ pf <> w /\
  forall ab : Z -> bool, ab w = ab w' -> ab pe = ab pf -> ab w <> ab pe -> ambiguous cols ab q0.
Definition facing (e f : Z * Z) : Prop := exists pe qe pf qf, same_side e (pe, qe) /\ same_side f (pf, qf) /\ side cols rows (pe, pf) /\ side cols rows (qe, qf) /\
  0 < leftness (middle cols e) (middle cols f) (place_of cols pe) /\ 0 < leftness (middle cols e) (middle cols f) (place_of cols pf) /\
  leftness (middle cols e) (middle cols f) (place_of cols qe) < 0 /\ leftness (middle cols e) (middle cols f) (place_of cols qf) < 0.
Lemma two_sides k r e f : is_cell cols rows (k, r) -> side_of_cell cols rows (k, r) e -> side_of_cell cols rows (k, r) f -> ~ same_side e f -> meeting (k, r) e f \/ facing e f.
Proof.
  intros [Hk Hr] (_ & Se & E1 & E2) (_ & Sf & F1 & F2) N. cbn [fst snd] in Hk, Hr. unfold point_of_cell in *. cbn [fst snd] in *.
  assert (N' : middle cols e <> middle cols f) by (intro X; apply N; exact (mid_same cols rows C1 e f Se Sf X)).
  assert (K : forall a b, k <= a <= k + 1 -> r <= b <= r + 1 -> in_mesh cols rows (a + b * cols) /\ col_of cols (a + b * cols) = a /\ row_of cols (a + b * cols) = b) by (intros; apply at_coords; lia).
  assert (B : forall g, same_side e g -> (k <= col_of cols (fst g) <= k + 1 /\ r <= row_of cols (fst g) <= r + 1) /\ (k <= col_of cols (snd g) <= k + 1 /\ r <= row_of cols (snd g) <= r + 1)) by (intros g [-> | ->]; cbn [fst snd]; auto).
  assert (B' : forall g, same_side f g -> (k <= col_of cols (fst g) <= k + 1 /\ r <= row_of cols (fst g) <= r + 1) /\ (k <= col_of cols (snd g) <= k + 1 /\ r <= row_of cols (snd g) <= r + 1)) by (intros g [-> | ->]; cbn [fst snd]; auto).
  destruct (K k r ltac:(lia) ltac:(lia)) as (I00 & X00 & Y00), (K (k + 1) r ltac:(lia) ltac:(lia)) as (I10 & X10 & Y10), (K k (r + 1) ltac:(lia) ltac:(lia)) as (I01 & X01 & Y01), (K (k + 1) (r + 1) ltac:(lia) ltac:(lia)) as (I11 & X11 & Y11).
  set (p00 := k + r * cols) in *. set (p10 := k + 1 + r * cols) in *. set (p01 := k + (r + 1) * cols) in *. set (p11 := k + 1 + (r + 1) * cols) in *.
  assert (Am : forall ab : Z -> bool, ab p00 = ab p11 -> ab p10 = ab p01 -> ab p00 <> ab p10 -> ambiguous cols ab (k, r)).
  { intros ab A1 A2 A3. unfold ambiguous, corner. cbn [fst snd]. rewrite !Z.add_0_r. auto. }
  assert (S1 : side cols rows (p00, p10)) by (apply mk_side; auto; rewrite X00, X10, Y00, Y10; lia). assert (S2 : side cols rows (p01, p11)) by (apply mk_side; auto; rewrite X01, X11, Y01, Y11; lia).
  assert (S3 : side cols rows (p00, p01)) by (apply mk_side; auto; rewrite X00, X01, Y00, Y01; lia). assert (S4 : side cols rows (p10, p11)) by (apply mk_side; auto; rewrite X10, X11, Y10, Y11; lia).
  assert (Sw : forall p q, side cols rows (p, q) -> side cols rows (q, p)) by (intros p q (A1 & A2 & A3); apply mk_side; auto; lia).
  assert (M : forall p q a b a' b', col_of cols p = a -> row_of cols p = b -> col_of cols q = a' -> row_of cols q = b' -> forall g, same_side g (p, q) -> middle cols g = (a + a', b + b')).
  { intros p q a b a' b' <- <- <- <- g Hg. rewrite <- (same_mid cols _ _ Hg). reflexivity. }
  assert (Fe : same_side e (p00, p10) \/ same_side e (p01, p11) \/ same_side e (p00, p01) \/ same_side e (p10, p11)).
  { destruct (side_mid cols rows C1 e Se) as [(a & b & Ha & Hb & Em & Ss)|(a & b & Ha & Hb & Em & Ss)]; specialize (B _ Ss); cbn [fst snd] in B.
    - destruct (at_coords cols rows a b ltac:(lia) Hb) as (_ & U1 & U2), (at_coords cols rows (a + 1) b ltac:(lia) Hb) as (_ & U3 & U4). rewrite U1, U2, U3, U4 in B. assert (a = k) by lia. subst a. assert (b = r \/ b = r + 1) as [-> | ->] by lia; auto.
    - destruct (at_coords cols rows a b ltac:(lia) ltac:(lia)) as (_ & U1 & U2), (at_coords cols rows a (b + 1) ltac:(lia) ltac:(lia)) as (_ & U3 & U4). rewrite U1, U2, U3, U4 in B. assert (b = r) by lia. subst b. assert (a = k \/ a = k + 1) as [-> | ->] by lia; auto. }
  assert (Ff : same_side f (p00, p10) \/ same_side f (p01, p11) \/ same_side f (p00, p01) \/ same_side f (p10, p11)).
  { destruct (side_mid cols rows C1 f Sf) as [(a & b & Ha & Hb & Em & Ss)|(a & b & Ha & Hb & Em & Ss)]; specialize (B' _ Ss); cbn [fst snd] in B'.
    - destruct (at_coords cols rows a b ltac:(lia) Hb) as (_ & U1 & U2), (at_coords cols rows (a + 1) b ltac:(lia) Hb) as (_ & U3 & U4). rewrite U1, U2, U3, U4 in B'. assert (a = k) by lia. subst a. assert (b = r \/ b = r + 1) as [-> | ->] by lia; auto.
    - destruct (at_coords cols rows a b ltac:(lia) ltac:(lia)) as (_ & U1 & U2), (at_coords cols rows a (b + 1) ltac:(lia) ltac:(lia)) as (_ & U3 & U4). rewrite U1, U2, U3, U4 in B'. assert (b = r) by lia. subst b. assert (a = k \/ a = k + 1) as [-> | ->] by lia; auto. }
  clear B B' E1 E2 F1 F2 Se Sf N K.
  assert (D : p00 <> p10 /\ p00 <> p01 /\ p00 <> p11 /\ p10 <> p01 /\ p10 <> p11 /\ p01 <> p11) by (repeat split; intro X; rewrite X in *; lia).
  assert (Sy : forall g p q, same_side g (p, q) -> same_side g (q, p)) by (intros [a b] p q [X|X]; injection X as -> ->; [right|left]; reflexivity).
  clearbody p00 p10 p01 p11. destruct D as (D1 & D2 & D3 & D4 & D5 & D6).
  destruct Fe as [Fe|[Fe|[Fe|Fe]]]; [pose proof (M _ _ _ _ _ _ X00 Y00 X10 Y10 e Fe) as Me|pose proof (M _ _ _ _ _ _ X01 Y01 X11 Y11 e Fe) as Me|pose proof (M _ _ _ _ _ _ X00 Y00 X01 Y01 e Fe) as Me|pose proof (M _ _ _ _ _ _ X10 Y10 X11 Y11 e Fe) as Me];
  (destruct Ff as [Ff|[Ff|[Ff|Ff]]]; [pose proof (M _ _ _ _ _ _ X00 Y00 X10 Y10 f Ff) as Mf|pose proof (M _ _ _ _ _ _ X01 Y01 X11 Y11 f Ff) as Mf|pose proof (M _ _ _ _ _ _ X00 Y00 X01 Y01 f Ff) as Mf|pose proof (M _ _ _ _ _ _ X10 Y10 X11 Y11 f Ff) as Mf]);
  try (exfalso; apply N'; rewrite Me, Mf; reflexivity); clear N' M.
  (* 12 ways *)
  all: first [
    solve [right; (exists p00, p10, p01, p11) + (exists p10, p00, p11, p01) + (exists p01, p11, p00, p10) + (exists p11, p01, p10, p00) + (exists p00, p01, p10, p11) + (exists p01, p00, p11, p10) + (exists p10, p11, p00, p01) + (exists p11, p10, p01, p00);
      rewrite Me, Mf; unfold leftness, place_of; rewrite X00, Y00, X10, Y10, X01, Y01, X11, Y11; cbn [fst snd];
      (split; [solve [eauto 4]|split; [solve [eauto 4]|split; [solve [eauto 4]|split; [solve [eauto 4]|]]]]); repeat split; nia]
  | solve [left; (exists p00, p10, p01, p11) + (exists p00, p01, p10, p11) + (exists p10, p00, p11, p01) + (exists p10, p11, p00, p01) + (exists p01, p00, p11, p10) + (exists p01, p11, p00, p10) + (exists p11, p10, p01, p00) + (exists p11, p01, p10, p00);
      (do 9 (split; [solve [eauto 4]|])); intros ab A1 A2 A3; apply Am; congruence] ].
Qed.
End Shapes.

(** *** One closed curve: in an ambiguous cell it takes both sides at a corner which it cuts off *)
Section One.
Variables cols rows : Z.
Hypothesis C1 : 1 <= cols.
Variable above : Z -> bool.
Variable c : list (Z * Z).
Hypothesis Ic : is_curve cols rows above c.
Hypothesis Hl : higher_left cols above c.
Hypothesis Cc : closed_curve c.
Variable t : Z * Z -> bool.
Hypothesis Cu : cuts_off cols rows above t c.
Notation mid := (middle cols).
Lemma same_sym e f : same_side e f -> same_side f e.
Proof. destruct e, f. intros [H|H]; injection H as -> ->; [left|right]; reflexivity. Qed.
Lemma same_trans e f g : same_side e f -> same_side f g -> same_side e g.
Proof. destruct e, f, g. unfold same_side. cbn. intros [H|H] [K|K]; injection H as -> ->; injection K as -> ->; auto. Qed.
Lemma cell_box k r g : is_cell cols rows (k, r) -> side cols rows g -> 2 * k <= fst (mid g) <= 2 * k + 2 -> 2 * r <= snd (mid g) <= 2 * r + 2 -> side_of_cell cols rows (k, r) g.
Proof.
  intros Q S A B. split; [exact Q|]. split; [exact S|]. destruct g as [p q], S as (I1 & I2 & Ad). unfold middle in A, B. unfold point_of_cell. cbn [fst snd] in *.
  destruct Ad as [[E Ad]|[E Ad]]; lia.
Qed.
Lemma box_cell k r g : side_of_cell cols rows (k, r) g -> 2 * k <= fst (mid g) <= 2 * k + 2 /\ 2 * r <= snd (mid g) <= 2 * r + 2.
Proof. intros (_ & _ & A & B). destruct g as [p q]. unfold point_of_cell, middle in *. cbn [fst snd] in *. lia. Qed.
Lemma at_corner k r g w : side_of_cell cols rows (k, r) g -> w = fst g \/ w = snd g -> mid g = (2 * k + 1, 2 * row_of cols w) \/ mid g = (2 * col_of cols w, 2 * r + 1).
Proof.
  destruct g as [p q]. intros (_ & (_ & _ & Ad) & A & B) W. unfold point_of_cell, middle in *. cbn [fst snd] in *. destruct Ad as [[E Ad]|[E Ad]]; [left|right]; destruct W as [-> | ->]; f_equal; lia.
Qed.
(** A curve which goes through a side of a cell goes through another one *)
Lemma goes_on k r g : In g c -> side_of_cell cols rows (k, r) g -> exists h, In h c /\ side_of_cell cols rows (k, r) h /\ mid h <> mid g /\ (next_in c g h \/ next_in c h g).
Proof.
  intros Ig Q. pose proof (box_cell _ _ _ Q) as [Bx By]. destruct (neighbours cols rows above c Ic Cc g Ig) as (d & f & Hd & Hf).
  destruct (step_in cols rows above c Ic Hl _ _ Hd) as [Id _]. destruct (step_in cols rows above c Ic Hl _ _ Hf) as [_ If].
  destruct (step_cell cols rows above C1 c Ic Hl _ _ Hd) as [Nd (kd & rd & D1 & D2 & D3 & D4 & D5 & D6)]. destruct (step_cell cols rows above C1 c Ic Hl _ _ Hf) as [Nf (kf & rf & F1 & F2 & F3 & F4 & F5 & F6)].
  assert (Sd : side cols rows d) by apply (cv_sides _ _ _ _ Ic d Id). assert (Sf : side cols rows f) by apply (cv_sides _ _ _ _ Ic f If). assert (Qc : is_cell cols rows (k, r)) by apply Q.
  assert (Ch : (fst (mid d) - 2 * k - 1) * (fst (mid d) - 2 * k - 1) <= 1 /\ (snd (mid d) - 2 * r - 1) * (snd (mid d) - 2 * r - 1) <= 1 \/ (fst (mid f) - 2 * k - 1) * (fst (mid f) - 2 * k - 1) <= 1 /\ (snd (mid f) - 2 * r - 1) * (snd (mid f) - 2 * r - 1) <= 1).
  { destruct (pass cols rows above C1 c Ic Hl d g f Hd Hf) as [(k' & r' & _ & _ & E & P)|(k' & r' & _ & _ & E & P)]; rewrite E in *; cbn [fst snd] in *.
    - assert (k' = k) by lia. subst k'. assert (kd = k) by lia. assert (kf = k) by lia. subst kd kf. assert (G : r' = r \/ r' = r + 1) by lia.
      destruct G as [-> | ->], P as [P|P].
      + right. assert (rf = r) by lia. subst rf. nia.
      + left. assert (rd = r) by lia. subst rd. nia.
      + left. assert (rd = r) by lia. subst rd. nia.
      + right. assert (rf = r) by lia. subst rf. nia.
    - assert (r' = r) by lia. subst r'. assert (rd = r) by lia. assert (rf = r) by lia. subst rd rf. assert (G : k' = k \/ k' = k + 1) by lia.
      destruct G as [-> | ->], P as [P|P].
      + right. assert (kf = k) by lia. subst kf. nia.
      + left. assert (kd = k) by lia. subst kd. nia.
      + left. assert (kd = k) by lia. subst kd. nia.
      + right. assert (kf = k) by lia. subst kf. nia. }
  destruct Ch as [[X Y]|[X Y]].
  - exists d. split; [exact Id|]. split; [apply cell_box; [exact Qc|exact Sd|nia|nia]|]. split; [exact Nd|]. right. apply in_steps. exact Hd.
  - exists f. split; [exact If|]. split; [apply cell_box; [exact Qc|exact Sf|nia|nia]|]. split; [intro E; apply Nf; symmetry; exact E|]. left. apply in_steps. exact Hf.
Qed.
Lemma both k r e f w : ambiguous cols above (k, r) -> above w = negb (t (k, r)) -> side_of_cell cols rows (k, r) e -> side_of_cell cols rows (k, r) f -> w = fst e \/ w = snd e -> w = fst f \/ w = snd f -> mid e <> mid f ->
  (exists g, In g c /\ same_side e g) -> exists g, In g c /\ same_side f g.
Proof.
  intros Am Aw Qe Qf We Wf N (g & Ig & Sg). assert (Qg : side_of_cell cols rows (k, r) g) by (destruct Qe as (A & Se & P1 & P2); split; [exact A|]; split; [apply (cv_sides _ _ _ _ Ic g Ig)|]; destruct Sg as [-> | ->]; auto).
  assert (Wg : w = fst g \/ w = snd g) by (destruct Sg as [-> | ->]; cbn [fst snd]; tauto). pose proof (same_mid cols _ _ Sg) as Mg.
  destruct (goes_on k r g Ig Qg) as (h & Ih & Qh & Nh & St).
  assert (P : exists p, (p = fst g \/ p = snd g) /\ (p = fst h \/ p = snd h) /\ above p = negb (t (k, r))).
  { destruct St as [St|St]; destruct (Cu _ _ (k, r) St) as (p & P1 & P2 & P3); auto; exists p; auto. }
  destruct P as (p & P1 & P2 & P3). assert (p = w).
  { destruct (cv_sides _ _ _ _ Ic g Ig) as [_ Cg]. unfold crossed in Cg. destruct P1 as [-> | ->], Wg as [-> | ->]; try reflexivity; congruence. }
  subst p. exists h. split; [exact Ih|]. apply (mid_same cols rows C1); [apply Qf|apply Qh|].
  pose proof (at_corner _ _ _ _ Qe We) as X1. pose proof (at_corner _ _ _ _ Qf Wf) as X2. pose proof (at_corner _ _ _ _ Qh P2) as X3. rewrite Mg in Nh.
  destruct X1 as [X1|X1], X2 as [X2|X2], X3 as [X3|X3]; congruence.
Qed.
End One.

(** *** Two closed curves *)
Section Two.
Variables cols rows : Z.
Hypothesis C1 : 1 <= cols.
Variables above above' : Z -> bool.
Variables t t' : Z * Z -> bool.
Variables c c' : list (Z * Z).
Hypothesis Ic : is_curve cols rows above c.
Hypothesis Hl : higher_left cols above c.
Hypothesis Cc : closed_curve c.
Hypothesis Cu : cuts_off cols rows above t c.
Hypothesis Ic' : is_curve cols rows above' c'.
Hypothesis Hl' : higher_left cols above' c'.
Hypothesis Cc' : closed_curve c'.
Hypothesis Cu' : cuts_off cols rows above' t' c'.
(** [h]: above or not; the points that are so for the first curve are so for the second one *)
Variable h : bool.
Hypothesis Mo : forall p, in_mesh cols rows p -> above p = h -> above' p = h.
Hypothesis Mt : forall q, is_cell cols rows q -> t q = h -> t' q = h.
(** What the second curve separates *)
Variable g : Z -> bool.
Hypothesis Sp : forall e, side cols rows e -> xorb (g (fst e)) (g (snd e)) = true <-> exists k, In k c' /\ same_side e k.
Definition this_end (e : Z * Z) : Z := if Bool.eqb (above (fst e)) h then fst e else snd e.
Lemma this_end_of e p q : In e c -> same_side e (p, q) -> above p = h -> this_end e = p.
Proof.
  intros Ie S A. destruct (cv_sides _ _ _ _ Ic e Ie) as [_ Ce]. unfold crossed in Ce. unfold this_end. destruct (same_sides e p q S) as [[E1 E2]|[E1 E2]]; rewrite E1, E2 in *; [rewrite A, eqb_reflx; reflexivity|].
  destruct (Bool.eqb (above q) h) eqn:B; [|reflexivity]. apply eqb_prop in B. congruence.
Qed.
Lemma uncrossed p q : side cols rows (p, q) -> above' p = above' q -> g p = g q.
Proof.
  intros S A. destruct (xorb (g p) (g q)) eqn:X; [|apply Bool.xorb_eq; exact X]. exfalso. apply (Sp (p, q) S) in X as (k & Hk & K). destruct (cv_sides _ _ _ _ Ic' k Hk) as [_ Ck]. unfold crossed in Ck. destruct K as [-> | ->]; cbn [fst snd] in Ck; congruence.
Qed.
Lemma step_level e f : In (e, f) (steps c) -> g (this_end e) = g (this_end f).
Proof.
  intro H. destruct (step_in cols rows above c Ic Hl _ _ H) as [Ie If]. destruct (cv_sides _ _ _ _ Ic e Ie) as [Se Ce]. destruct (cv_sides _ _ _ _ Ic f If) as [Sf Cf]. unfold crossed in Ce, Cf.
  pose proof (proj1 (in_steps c e f) H) as Nx. destruct (cv_steps _ _ _ _ Ic e f Nx) as [NS ([k r] & Qe & Qf)].
  assert (Am2 : forall u v : Z, Bool.eqb (above u) h = true -> above u = h) by (intros u v B; apply eqb_prop; exact B).
  destruct (two_sides cols rows C1 k r e f (proj1 Qe) Qe Qf NS) as [(w & pe & pf & w' & E1 & F1 & S1 & S2 & S3 & S4 & N1 & N2 & N3 & Am)|(pe & qe & pf & qf & E1 & F1 & S1 & S2 & L1 & L2 & L3 & L4)].
  - assert (Xe : above pe <> above w) by (destruct (same_sides _ _ _ E1) as [[A B]|[A B]]; rewrite A, B in Ce; congruence).
    assert (Xf : above pf <> above w) by (destruct (same_sides _ _ _ F1) as [[A B]|[A B]]; rewrite A, B in Cf; congruence).
    assert (Sw : forall e p q, same_side e (p, q) -> same_side e (q, p)) by (intros [a b] p q [X|X]; injection X as -> ->; [right|left]; reflexivity).
    destruct (bool_dec (above w) h) as [Aw|Aw].
    + rewrite (this_end_of e w pe Ie (Sw _ _ _ E1) Aw), (this_end_of f w pf If (Sw _ _ _ F1) Aw). reflexivity.
    + assert (Ae : above pe = h) by (destruct (above pe), (above w), h; congruence). assert (Af : above pf = h) by (destruct (above pf), (above w), h; congruence).
      rewrite (this_end_of e pe w Ie E1 Ae), (this_end_of f pf w If F1 Af).
      pose proof (Mo pe (proj1 S1) Ae) as Be. pose proof (Mo pf (proj1 S2) Af) as Bf.
      destruct (bool_dec (above' w) h) as [Bw|Bw]; [rewrite (uncrossed pe w S1), (uncrossed pf w S2) by congruence; reflexivity|].
      destruct (bool_dec (above' w') h) as [Bw'|Bw']; [rewrite (uncrossed pe w' S3), (uncrossed pf w' S4) by congruence; reflexivity|].
      assert (Aw' : above w' <> h) by (intro X; apply Bw', Mo; [apply S3|exact X]).
      assert (Am1 : ambiguous cols above (k, r)) by (apply Am; [destruct (above w), (above w'), h; congruence|congruence|congruence]).
      assert (Am' : ambiguous cols above' (k, r)) by (apply Am; [destruct (above' w), (above' w'), h; congruence|congruence|congruence]).
      destruct (Cu e f (k, r) Nx Qe Qf Am1) as (p & P1 & P2 & P3).
      assert (p = w).
      { destruct (same_sides _ _ _ E1) as [[A B]|[A B]], (same_sides _ _ _ F1) as [[A' B']|[A' B']]; rewrite A, B in P1; rewrite A', B' in P2; destruct P1 as [-> | ->], P2 as [P2|P2]; congruence. }
      subst p. assert (T : t (k, r) = h) by (destruct (t (k, r)), (above w), h; cbn in *; congruence). apply (Mt (k, r) (proj1 Qe)) in T.
      assert (Aw2 : above' w = negb (t' (k, r))) by (rewrite T; destruct (above' w), h; cbn; congruence).
      assert (We : w = fst e \/ w = snd e) by (destruct (same_sides _ _ _ E1) as [[A B]|[A B]]; auto). assert (Wf : w = fst f \/ w = snd f) by (destruct (same_sides _ _ _ F1) as [[A B]|[A B]]; auto).
      assert (Nm : middle cols e <> middle cols f) by (intro X; apply NS; exact (mid_same cols rows C1 e f Se Sf X)).
      assert (Eq : (exists g, In g c' /\ same_side (pe, w) g) <-> (exists g, In g c' /\ same_side (pf, w) g)).
      { assert (G : forall e' f' a b, same_side e' (a, w) -> same_side f' (b, w) -> side_of_cell cols rows (k, r) e' -> side_of_cell cols rows (k, r) f' -> w = fst e' \/ w = snd e' -> w = fst f' \/ w = snd f' -> middle cols e' <> middle cols f' ->
          (exists g, In g c' /\ same_side (a, w) g) -> exists g, In g c' /\ same_side (b, w) g).
        { intros e' f' a b Ea Eb Q1 Q2 W1 W2 Nm' (j & Ij & Sj). destruct (both cols rows C1 above' c' Ic' Hl' Cc' t' Cu' k r e' f' w Am' Aw2 Q1 Q2 W1 W2 Nm') as (j' & Ij' & Sj').
          - exists j. split; [exact Ij|]. exact (same_trans _ _ _ Ea Sj).
          - exists j'. split; [exact Ij'|]. exact (same_trans _ _ _ (same_sym _ _ Eb) Sj'). }
        split; [exact (G e f pe pf E1 F1 Qe Qf We Wf Nm)|]. apply (G f e pf pe F1 E1 Qf Qe Wf We). congruence. }
      pose proof (Sp (pe, w) S1) as P5. pose proof (Sp (pf, w) S2) as P6. rewrite Eq, <- P6 in P5. cbn [fst snd] in P5. destruct (g pe), (g pf), (g w); cbn in P5; try reflexivity; exfalso; destruct P5 as [P5 P5']; first [discriminate (P5 eq_refl)|discriminate (P5' eq_refl)].
  - assert (Lp : forall p, (p = pe \/ p = pf) -> above p = true).
    { intros p Hp. destruct (above p) eqn:A; [reflexivity|]. exfalso. destruct (Hl e f p Nx) as [_ K]; [unfold end_of; destruct (same_sides _ _ _ E1) as [[X Y]|[X Y]], (same_sides _ _ _ F1) as [[X' Y']|[X' Y']]; rewrite X, Y, X', Y'; tauto|]. specialize (K A). destruct Hp as [-> | ->]; lia. }
    assert (Lq : forall p, (p = qe \/ p = qf) -> above p = false).
    { intros p Hp. destruct (above p) eqn:A; [|reflexivity]. exfalso. destruct (Hl e f p Nx) as [K _]; [unfold end_of; destruct (same_sides _ _ _ E1) as [[X Y]|[X Y]], (same_sides _ _ _ F1) as [[X' Y']|[X' Y']]; rewrite X, Y, X', Y'; tauto|]. specialize (K A). destruct Hp as [-> | ->]; lia. }
    assert (Sw : forall e p q, same_side e (p, q) -> same_side e (q, p)) by (intros [a b] p q [X|X]; injection X as -> ->; [right|left]; reflexivity).
    destruct h eqn:Eh.
    + rewrite (this_end_of e pe qe Ie E1), (this_end_of f pf qf If F1) by (rewrite Eh; apply Lp; auto). apply uncrossed; [exact S1|]. rewrite !(Mo pe), !(Mo pf); first [reflexivity|apply S1|apply Lp; auto].
    + rewrite (this_end_of e qe pe Ie (Sw _ _ _ E1)), (this_end_of f qf pf If (Sw _ _ _ F1)) by (rewrite Eh; apply Lq; auto). apply uncrossed; [exact S2|]. rewrite !(Mo qe), !(Mo qf); first [reflexivity|apply S2|apply Lq; auto].
Qed.
Lemma ends_level e f : In e c -> In f c -> g (this_end e) = g (this_end f).
Proof. apply (all_alike c (fun e => g (this_end e))). exact step_level. Qed.
End Two.

(** *** One encloses the other, or no point is inside both *)
Section Laminar.
Variables cols rows : Z.
Hypothesis C1 : 1 <= cols.
Hypothesis R1 : 1 <= rows.
Variables above above' : Z -> bool.
Variables t t' : Z * Z -> bool.
Variables c c' : list (Z * Z).
Hypothesis Ic : is_curve cols rows above c.
Hypothesis Hl : higher_left cols above c.
Hypothesis Cc : closed_curve c.
Hypothesis Cu : cuts_off cols rows above t c.
Hypothesis Un : forall e, In e c -> passes cols c (middle cols e) = 1.
Hypothesis Ic' : is_curve cols rows above' c'.
Hypothesis Hl' : higher_left cols above' c'.
Hypothesis Cc' : closed_curve c'.
Hypothesis Cu' : cuts_off cols rows above' t' c'.
Hypothesis Un' : forall e, In e c' -> passes cols c' (middle cols e) = 1.
(** The second curve is of the higher level *)
Hypothesis Mo : forall p, in_mesh cols rows p -> above' p = true -> above p = true.
Hypothesis Mt : forall q, is_cell cols rows q -> t' q = true -> t q = true.
Variable sx : Z.
Hypothesis SX : sx = 1 \/ sx = -1.
Notation f := (inside_at cols c sx).
Notation f' := (inside_at cols c' sx).
Lemma one_side d ab : is_curve cols rows ab d -> higher_left cols ab d -> closed_curve d -> (forall e, In e d -> passes cols d (middle cols e) = 1) ->
  exists s e0, In e0 d /\ (forall p q, side cols rows (p, q) -> xorb (inside_at cols d sx p) s = false -> xorb (inside_at cols d sx q) s = true -> ab p = false /\ ab q = true /\ exists e, In e d /\ same_side (p, q) e) /\
    xorb (inside_at cols d sx (fst e0)) s <> xorb (inside_at cols d sx (snd e0)) s /\ side cols rows e0.
Proof.
  intros Id Ld Cd Ud. destruct (closed_form cols rows ab d Id Cd) as (e0 & m0 & E0). assert (I0 : In e0 d) by (rewrite E0; left; reflexivity). clear E0 m0.
  exists (negb (inside_at cols d sx (high_end ab e0))), e0. split; [exact I0|]. split; [|split; [rewrite (apart cols rows ab C1 d Id Ld Cd sx SX Ud e0 I0); destruct (inside_at cols d sx (snd e0)), (inside_at cols d sx (high_end ab e0)); discriminate|apply (cv_sides _ _ _ _ Id e0 I0)]].
  intros p q S A B. assert (X : xorb (inside_at cols d sx p) (inside_at cols d sx q) = true) by (destruct (inside_at cols d sx p), (inside_at cols d sx q), (inside_at cols d sx (high_end ab e0)); cbn in *; congruence).
  apply (separated cols rows ab C1 d Id Ld Cd sx SX Ud (p, q) S) in X as (e & He & Se). destruct (ends_two cols rows ab C1 d Id Ld Cd sx SX Ud e He) as (T1 & T2 & T3 & T4 & T5 & T6).
  rewrite (high_ends_alike cols rows ab C1 d Id Ld Cd sx SX Ud e0 e I0 He) in A, B. assert (Pq : (p = fst e \/ p = snd e) /\ (q = fst e \/ q = snd e)) by (destruct Se as [-> | ->]; cbn [fst snd]; auto). destruct Pq as [Hp Hq].
  split; [|split].
  - destruct (ab p) eqn:K; [|reflexivity]. rewrite (proj1 (T4 p Hp) K) in A. destruct (inside_at cols d sx (high_end ab e)); discriminate A.
  - destruct (ab q) eqn:K; [reflexivity|]. rewrite (proj2 (T4 q Hq) K), T3 in B. destruct (inside_at cols d sx (low_end ab e)); discriminate B.
  - exists e. auto.
Qed.
Lemma laminar : (forall p, in_mesh cols rows p -> f p = true -> f' p = true) \/ (forall p, in_mesh cols rows p -> f' p = true -> f p = true) \/ (forall p, in_mesh cols rows p -> f p = true -> f' p = true -> False).
Proof.
  destruct (one_side c above Ic Hl Cc Un) as (s & e0 & I0 & H1 & D & S0). destruct (one_side c' above' Ic' Hl' Cc' Un') as (s' & e0' & I0' & H1' & D' & S0').
  set (g := fun p => xorb (f p) s) in *. set (g' := fun p => xorb (f' p) s') in *.
  assert (Sp : forall e, side cols rows e -> xorb (g (fst e)) (g (snd e)) = true <-> exists k, In k c /\ same_side e k).
  { intros e S. rewrite <- (separated cols rows above C1 c Ic Hl Cc sx SX Un e S). unfold g. destruct (f (fst e)), (f (snd e)), s; cbn; intuition congruence. }
  assert (Sp' : forall e, side cols rows e -> xorb (g' (fst e)) (g' (snd e)) = true <-> exists k, In k c' /\ same_side e k).
  { intros e S. rewrite <- (separated cols rows above' C1 c' Ic' Hl' Cc' sx SX Un' e S). unfold g'. destruct (f' (fst e)), (f' (snd e)), s'; cbn; intuition congruence. }
  pose proof (ends_level cols rows C1 above' above t' t c' c Ic' Hl' Cu' Ic Hl Cc Cu true Mo Mt g Sp) as K'.
  assert (Mo2 : forall p, in_mesh cols rows p -> above p = false -> above' p = false) by (intros p Ip A; destruct (above' p) eqn:B; [rewrite (Mo p Ip B) in A; discriminate A|reflexivity]).
  assert (Mt2 : forall q, is_cell cols rows q -> t q = false -> t' q = false) by (intros q Iq A; destruct (t' q) eqn:B; [rewrite (Mt q Iq B) in A; discriminate A|reflexivity]).
  pose proof (ends_level cols rows C1 above above' t t' c c' Ic Hl Cu Ic' Hl' Cc' Cu' false Mo2 Mt2 g' Sp') as K.
  set (ga := g' (this_end above false e0)) in *. set (be := g (this_end above' true e0')) in *.
  assert (F1 : forall p q, side cols rows (p, q) -> g p = false -> g q = true -> above p = false /\ above q = true /\ g' p = ga).
  { intros p q S A B. destruct (H1 p q S A B) as (X & Y & e & He & Se). split; [exact X|]. split; [exact Y|]. unfold ga. rewrite <- (K e e0 He I0). f_equal. symmetry. apply (this_end_of cols rows above c Ic false e p q He); [apply same_sym; exact Se|exact X]. }
  assert (F2 : forall p q, side cols rows (p, q) -> g' p = false -> g' q = true -> above' p = false /\ above' q = true /\ g q = be).
  { intros p q S A B. destruct (H1' p q S A B) as (X & Y & e & He & Se). split; [exact X|]. split; [exact Y|]. unfold be. rewrite <- (K' e e0' He I0'). f_equal. symmetry. apply (this_end_of cols rows above' c' Ic' true e q p He); [|exact Y].
    destruct e as [a b]. destruct Se as [Se|Se]; injection Se as -> ->; [right|left]; reflexivity. }
  assert (Sw : forall p q, side cols rows (p, q) -> side cols rows (q, p)) by (intros p q (A1 & A2 & A3); apply mk_side; auto; lia).
  assert (G : exists a b, forall p, in_mesh cols rows p -> g p = a -> g' p = b -> False).
  { exists (negb be), (negb ga). assert (Z : forall P : Z -> bool, (forall p, P p = true -> g p = negb be /\ g' p = negb ga) -> (forall p, g p = negb be -> g' p = negb ga -> P p = true) -> (forall p q, side cols rows (p, q) -> P p = P q) -> forall p, in_mesh cols rows p -> g p = negb be -> g' p = negb ga -> False).
    { intros P PA PB PC p Ip A B. pose proof (PB p A B) as Pp. destruct e0 as [u v]. destruct S0 as (Iu & Iv & _). cbn [fst snd] in D. apply D.
      pose proof (all_or_none cols rows C1 P PC p u Ip Iu) as U. pose proof (all_or_none cols rows C1 P PC p v Ip Iv) as W. rewrite Pp in U, W. destruct (PA u (eq_sym U)) as [U1 _]. destruct (PA v (eq_sym W)) as [W1 _]. unfold g in U1, W1. congruence. }
    apply (Z (fun p => Bool.eqb (g p) (negb be) && Bool.eqb (g' p) (negb ga))).
    - intros p Hp. apply andb_true_iff in Hp as [A B]. apply eqb_prop in A, B. auto.
    - intros p A B. rewrite A, B, !eqb_reflx. reflexivity.
    - intros p q S. pose proof (F1 p q S) as A1. pose proof (F1 q p (Sw _ _ S)) as A2. pose proof (F2 p q S) as B1. pose proof (F2 q p (Sw _ _ S)) as B2. pose proof (Mo p (proj1 S)) as M1. pose proof (Mo q (proj1 (proj2 S))) as M2.
      clearbody g g' be ga. clear - A1 A2 B1 B2 M1 M2. destruct (g p) eqn:E1, (g q) eqn:E2, (g' p) eqn:E3, (g' q) eqn:E4, be, ga; cbn; try reflexivity; exfalso; intuition congruence. }
  destruct G as (a & b & G). assert (Z0 : in_mesh cols rows 0 /\ row_of cols 0 = 0).
  { destruct (at_coords cols rows 0 0 ltac:(lia) ltac:(lia)) as (A & B & E). rewrite Z.mul_0_l, Z.add_0_l in *. auto. }
  destruct Z0 as [Z0 Zr]. pose proof (border_outside cols rows above C1 c Ic Hl Cc sx SX 0 Z0 (or_introl Zr)) as O. pose proof (border_outside cols rows above' C1 c' Ic' Hl' Cc' sx SX 0 Z0 (or_introl Zr)) as O'.
  pose proof (G 0 Z0) as G0. unfold g, g' in G, G0. rewrite O, O' in G0. cbn [xorb] in G0.
  destruct a, b, s, s'; try (exfalso; apply G0; reflexivity);
    first [solve [left; intros p Ip A; specialize (G p Ip); rewrite A in G; destruct (f' p); [reflexivity|exfalso; apply G; reflexivity]]
          |solve [right; left; intros p Ip A; specialize (G p Ip); rewrite A in G; destruct (f p); [reflexivity|exfalso; apply G; reflexivity]]
          |solve [right; right; intros p Ip A B; specialize (G p Ip); rewrite A, B in G; apply G; reflexivity]].
Qed.
End Laminar.

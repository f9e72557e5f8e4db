(** A closed curve and the sets of connected points on both sides of the level. *)
From Coq Require Import ZArith List Bool Lia ZifyBool.
From Verif Require Import S_Cntr S_Turn S_Hill P_Lines L_Loop L_Nest.
Import ListNotations.
Local Open Scope Z_scope.

Section Hill.
Variables cols rows : Z.
Hypothesis C1 : 1 <= cols.
Variable above : Z -> bool.
Variable t : Z * Z -> bool.
Notation is_t := (fun k b => t k = b).
Notation connected := (connected cols rows above).

Lemma side_sym p q : side cols rows (p, q) -> side cols rows (q, p).
Proof. intros (A & B & D). apply mk_side; [exact B|exact A|]. lia. Qed.
Lemma connected_trans kn p q r : connected kn p q -> connected kn q r -> connected kn p r.
Proof. intros H K. induction H as [p|p q r' S A H IH|k p q r' A1 A2 A3 A4 A5 A6 A7 A8 H IH]; [exact K|exact (Beside _ _ _ _ p q r S A (IH K))|exact (Across _ _ _ _ k p q r A1 A2 A3 A4 A5 A6 A7 A8 (IH K))]. Qed.
Lemma connected_sym kn p q : connected kn p q -> connected kn q p.
Proof.
  intro H. induction H as [p|p q r S A H IH|k p q r A1 A2 A3 A4 A5 A6 A7 A8 H IH]; [constructor| |]; apply (connected_trans kn _ _ _ IH).
  - apply (Beside _ _ _ _ q p p (side_sym _ _ S)); [congruence|constructor].
  - apply (Across _ _ _ _ k q p p); try assumption; [congruence|rewrite <- A7; assumption|constructor].
Qed.
Lemma connected_above kn p q : connected kn p q -> above p = above q.
Proof. intro H. induction H; congruence. Qed.
Lemma connected_weaker (kn kn' : Z * Z -> bool -> Prop) p q : (forall k b, kn k b -> kn' k b) -> connected kn p q -> connected kn' p q.
Proof. intros K H. induction H as [p|p q r S A H IH|k p q r A1 A2 A3 A4 A5 A6 A7 A8 H IH]; [constructor|exact (Beside _ _ _ _ _ _ _ S A IH)|exact (Across _ _ _ _ _ _ _ _ A1 A2 A3 A4 A5 A6 A7 (K _ _ A8) IH)]. Qed.

Lemma four_corners k r a1 b1 a2 b2 a3 b3 a4 b4 : k <= a1 <= k + 1 -> r <= b1 <= r + 1 -> k <= a2 <= k + 1 -> r <= b2 <= r + 1 -> k <= a3 <= k + 1 -> r <= b3 <= r + 1 -> k <= a4 <= k + 1 -> r <= b4 <= r + 1 ->
  b1 = b2 /\ Z.abs (a1 - a2) = 1 \/ a1 = a2 /\ Z.abs (b1 - b2) = 1 -> b1 = b3 /\ Z.abs (a1 - a3) = 1 \/ a1 = a3 /\ Z.abs (b1 - b3) = 1 -> b3 = b4 /\ Z.abs (a3 - a4) = 1 \/ a3 = a4 /\ Z.abs (b3 - b4) = 1 -> ~ (a1 = a4 /\ b1 = b4) -> ~ (a2 = a3 /\ b2 = b3) ->
  (a1 = k \/ a1 = k + 1) /\ (b1 = r \/ b1 = r + 1) /\ a4 = 2 * k + 1 - a1 /\ b4 = 2 * r + 1 - b1 /\ (a2 = a1 /\ b2 = 2 * r + 1 - b1 /\ a3 = 2 * k + 1 - a1 /\ b3 = b1 \/ a2 = 2 * k + 1 - a1 /\ b2 = b1 /\ a3 = a1 /\ b3 = 2 * r + 1 - b1).
Proof.
  clear C1. intros H1 H2 H3 H4 H5 H6 H7 H8 H12 H13 H34 D1 D2. assert (Z1 : a1 = k \/ a1 = k + 1) by lia. assert (Z2 : b1 = r \/ b1 = r + 1) by lia. split; [exact Z1|]. split; [exact Z2|].
  assert (Z3 : a2 = a1 /\ b2 = 2 * r + 1 - b1 \/ a2 = 2 * k + 1 - a1 /\ b2 = b1) by (clear - H1 H2 H3 H4 H12; lia). assert (Z4 : a3 = a1 /\ b3 = 2 * r + 1 - b1 \/ a3 = 2 * k + 1 - a1 /\ b3 = b1) by (clear - H1 H2 H5 H6 H13; lia).
  assert (Z5 : a4 = a3 /\ b4 = 2 * r + 1 - b3 \/ a4 = 2 * k + 1 - a3 /\ b4 = b3) by (clear - H5 H6 H7 H8 H34; lia). clear - Z3 Z4 Z5 D1 D2. destruct Z3 as [[-> ->]|[-> ->]], Z4 as [[-> ->]|[-> ->]], Z5 as [[-> ->]|[-> ->]]; try (exfalso; apply D1; split; ring); try (exfalso; apply D2; split; reflexivity); (split; [ring|]; split; [ring|]); first [left; repeat split; ring|right; repeat split; ring].
Qed.
(** Along a curve the ends on one side of the level are connected *)
Section Along.
Variable c : list (Z * Z).
Hypothesis Ic : is_curve cols rows above c.
Hypothesis Cu : cuts_off cols rows above t c.
Variable h : bool.
Notation the_end := (this_end above h).
Lemma step_connected e f : next_in c e f -> connected is_t (the_end e) (the_end f).
Proof.
  intro Nx. assert (I2 : In e c /\ In f c) by (destruct Nx as (l1 & l2 & ->); split; apply in_or_app; right; cbn; auto). destruct I2 as [Ie If].
  destruct (cv_sides _ _ _ _ Ic e Ie) as [Se Ce]. destruct (cv_sides _ _ _ _ Ic f If) as [Sf Cf]. unfold crossed in Ce, Cf.
  destruct (cv_steps _ _ _ _ Ic e f Nx) as [NS ([k r] & Qe & Qf)].
  assert (Sw : forall e p q, same_side e (p, q) -> same_side e (q, p)) by (intros [a b] p q [X|X]; injection X as -> ->; [right|left]; reflexivity).
  assert (Pt : forall e p q, side_of_cell cols rows (k, r) e -> same_side e (p, q) -> point_of_cell cols (k, r) p /\ point_of_cell cols (k, r) q).
  { intros g p q (_ & _ & G1 & G2) X. destruct (same_sides _ _ _ X) as [[<- <-]|[<- <-]]; auto. }
  destruct (two_sides cols rows C1 k r e f (proj1 Qe) Qe Qf NS) as [(w & pe & pf & w' & E1 & F1 & S1 & S2 & S3 & S4 & N1 & N2 & N3 & Am)|(pe & qe & pf & qf & E1 & F1 & S1 & S2 & L1 & L2 & L3 & L4)].
  - assert (Xe : above pe <> above w) by (destruct (same_sides _ _ _ E1) as [[A B]|[A B]]; rewrite A, B in Ce; congruence).
    assert (Xf : above pf <> above w) by (destruct (same_sides _ _ _ F1) as [[A B]|[A B]]; rewrite A, B in Cf; congruence).
    destruct (bool_dec (above w) h) as [Aw|Aw].
    + rewrite (this_end_of cols rows above c Ic h e w pe Ie (Sw _ _ _ E1) Aw), (this_end_of cols rows above c Ic h f w pf If (Sw _ _ _ F1) Aw). constructor.
    + assert (Ae : above pe = h) by (destruct (above pe), (above w), h; congruence). assert (Af : above pf = h) by (destruct (above pf), (above w), h; congruence).
      rewrite (this_end_of cols rows above c Ic h e pe w Ie E1 Ae), (this_end_of cols rows above c Ic h f pf w If F1 Af).
      destruct (bool_dec (above w') h) as [Bw'|Bw']; [apply (Beside _ _ _ _ pe w' pf S3); [congruence|]; apply (Beside _ _ _ _ w' pf pf (side_sym _ _ S4)); [congruence|constructor]|].
      assert (Am1 : ambiguous cols above (k, r)) by (apply Am; [destruct (above w), (above w'), h; congruence|congruence|congruence]).
      destruct (Cu e f (k, r) Nx Qe Qf Am1) as (p & P1 & P2 & P3).
      assert (p = w).
      { destruct (same_sides _ _ _ E1) as [[A B]|[A B]], (same_sides _ _ _ F1) as [[A' B']|[A' B']]; rewrite A, B in P1; rewrite A', B' in P2; destruct P1 as [-> | ->], P2 as [P2|P2]; congruence. }
      subst p. assert (T : t (k, r) = h) by (destruct (t (k, r)), (above w), h; cbn in *; congruence).
      apply (Across _ _ _ _ (k, r) pe pf pf); [apply Qe|exact Am1|apply S1|apply S2|apply (Pt e _ _ Qe E1)|apply (Pt f _ _ Qf F1)|congruence|congruence|constructor].
  - assert (Xe : above pe <> above qe) by (destruct (same_sides _ _ _ E1) as [[A B]|[A B]]; rewrite A, B in Ce; congruence).
    assert (Xf : above pf <> above qf) by (destruct (same_sides _ _ _ F1) as [[A B]|[A B]]; rewrite A, B in Cf; congruence).
    assert (Dis : forall p, (p = fst e \/ p = snd e) -> (p = fst f \/ p = snd f) -> False).
    { intros p P1 P2. assert (Z1 : p = pe \/ p = qe) by (destruct (same_sides _ _ _ E1) as [[A B]|[A B]]; rewrite A, B in P1; tauto). assert (Z2 : p = pf \/ p = qf) by (destruct (same_sides _ _ _ F1) as [[A B]|[A B]]; rewrite A, B in P2; tauto).
      assert (nb : forall a b, side cols rows (a, b) -> a <> b) by (clear; intros a b (_ & _ & X) ->; lia).
      destruct Z1 as [-> | ->], Z2 as [Z2|Z2]; [exact (nb _ _ S1 Z2)|rewrite Z2 in L1; clear - L1 L4; lia|rewrite Z2 in L3; clear - L2 L3; lia|exact (nb _ _ S2 Z2)]. }
    destruct (bool_dec (above pe) (above pf)) as [Ap|Ap].
    + destruct (bool_dec (above pe) h) as [H|H].
      * rewrite (this_end_of cols rows above c Ic h e pe qe Ie E1 H), (this_end_of cols rows above c Ic h f pf qf If F1) by congruence. exact (Beside _ _ _ _ pe pf pf S1 Ap (Here _ _ _ _ pf)).
      * assert (He : above qe = h) by (destruct (above pe), (above qe), h; congruence). assert (Hf : above qf = h) by (destruct (above pf), (above qf), (above pe), h; congruence).
        rewrite (this_end_of cols rows above c Ic h e qe pe Ie (Sw _ _ _ E1) He), (this_end_of cols rows above c Ic h f qf pf If (Sw _ _ _ F1) Hf). apply (Beside _ _ _ _ qe qf qf S2); [congruence|constructor].
    + exfalso. assert (Am : ambiguous cols above (k, r)).
      { destruct (Pt e _ _ Qe E1) as [[A1 A2] [A3 A4]]. destruct (Pt f _ _ Qf F1) as [[B1 B2] [B3 B4]]. cbn [fst snd] in *. destruct S1 as (I1 & I2 & N1). destruct S2 as (I3 & I4 & N2).
        destruct (coords cols rows pe C1 I1) as (_ & _ & G1). destruct (coords cols rows pf C1 I2) as (_ & _ & G2). destruct (coords cols rows qe C1 I3) as (_ & _ & G3). destruct (coords cols rows qf C1 I4) as (_ & _ & G4).
        assert (N3 : side cols rows (pe, qe)) by (destruct (same_sides _ _ _ E1) as [[<- <-]|[<- <-]]; destruct e; [exact Se|apply side_sym; exact Se]). destruct N3 as (_ & _ & N3).
        unfold ambiguous, corner. cbn [fst snd].
        assert (X1 : above qe = above pf) by (destruct (above pe), (above pf), (above qe); congruence). assert (X2 : above qf = above pe) by (destruct (above pe), (above pf), (above qf); congruence).
        set (a1 := col_of cols pe) in *. set (b1 := row_of cols pe) in *. set (a2 := col_of cols pf) in *. set (b2 := row_of cols pf) in *. set (a3 := col_of cols qe) in *. set (b3 := row_of cols qe) in *. set (a4 := col_of cols qf) in *. set (b4 := row_of cols qf) in *.
        assert (D1 : ~ (a1 = a4 /\ b1 = b4)) by (intros [X Y]; assert (Ex : pe = qf) by congruence; rewrite <- Ex in L4; clear - L1 L4; lia). assert (D2 : ~ (a2 = a3 /\ b2 = b3)) by (intros [X Y]; assert (Ex : pf = qe) by congruence; rewrite <- Ex in L3; clear - L2 L3; lia).
        clearbody a1 b1 a2 b2 a3 b3 a4 b4. clear - A1 A2 A3 A4 B1 B2 B3 B4 G1 G2 G3 G4 N1 N2 N3 D1 D2 X1 X2 Xe Xf Ap.
        destruct (four_corners k r a1 b1 a2 b2 a3 b3 a4 b4 A1 A2 B1 B2 A3 A4 B3 B4 N1 N3 N2 D1 D2) as (Z1 & Z2 & Z3 & Z4 & Z5).
        destruct Z1 as [Z1|Z1], Z2 as [Z2|Z2], Z5 as [(Z5 & Z6 & Z7 & Z8)|(Z5 & Z6 & Z7 & Z8)]; subst a1 b1 a2 b2 a3 b3 a4 b4; revert G1 G2 G3 G4;
        replace (2 * k + 1 - k) with (k + 1) by ring; replace (2 * r + 1 - r) with (r + 1) by ring; replace (2 * k + 1 - (k + 1)) with k by ring; replace (2 * r + 1 - (r + 1)) with r by ring; intros G1 G2 G3 G4;
          rewrite ?Z.add_0_r; rewrite <- ?G1, <- ?G2, <- ?G3, <- ?G4; repeat split; congruence. }
      destruct (Cu e f (k, r) Nx Qe Qf Am) as (p & P1 & P2 & _). exact (Dis p P1 P2).
Qed.
Lemma along_connected e f : In e c -> In f c -> connected is_t (the_end e) (the_end f).
Proof.
  assert (St : forall e f, next_in c e f -> connected is_t (the_end e) (the_end f)) by exact step_connected. clear Ic Cu. destruct c as [|a l]; [intros []|].
  enough (G : forall m a, (forall e f, next_in (a :: m) e f -> connected is_t (the_end e) (the_end f)) -> forall e, In e (a :: m) -> connected is_t (the_end a) (the_end e)).
  { intros He Hf. apply (connected_trans _ _ (the_end a)); [apply connected_sym|]; apply (G l a St); assumption. }
  clear a l St. induction m as [|b m IH]; intros a St z [<-|H]; [constructor|destruct H|constructor|]. apply (connected_trans _ _ (the_end b)); [apply St; exists [], m; reflexivity|]. apply IH; [|exact H].
  intros x y (l1 & l2 & E). apply St. exists (a :: l1), l2. rewrite E. reflexivity.
Qed.
End Along.

(** The two points of an ambiguous cell on one side of the level are opposite *)
Lemma across_corner k r p q : is_cell cols rows (k, r) -> ambiguous cols above (k, r) -> in_mesh cols rows p -> in_mesh cols rows q -> point_of_cell cols (k, r) p -> point_of_cell cols (k, r) q -> above p = above q -> p <> q ->
  exists w, above w <> above p /\ side_of_cell cols rows (k, r) (p, w) /\ side_of_cell cols rows (k, r) (q, w) /\ middle cols (p, w) <> middle cols (q, w).
Proof.
  intros Qc Am Ip Iq Pp Pq A N. destruct (coords cols rows p C1 Ip) as (_ & _ & P3). destruct (coords cols rows q C1 Iq) as (_ & _ & Q3).
  exists (col_of cols q + row_of cols p * cols). unfold side_of_cell, middle, side, point_of_cell, ambiguous, corner in *. cbn [fst snd] in *.
  destruct Qc as [Qk Qr]. cbn [fst snd] in *.
  destruct (at_coords cols rows (col_of cols q) (row_of cols p) ltac:(lia) ltac:(lia)) as (W1 & W2 & W3). rewrite W2, W3.
  set (w := col_of cols q + row_of cols p * cols) in *.
  assert (D : col_of cols p <> col_of cols q /\ row_of cols p <> row_of cols q /\ above w <> above p).
  { unfold w. clear w W1 W2 W3. revert A N. rewrite P3 at 1 2. rewrite Q3 at 1 2. set (a := col_of cols p) in *. set (b := row_of cols p) in *. set (a' := col_of cols q) in *. set (b' := row_of cols q) in *. clearbody a b a' b'.
    rewrite P3. clear P3 Q3 Ip Iq. destruct Pp as [H1 H2]. destruct Pq as [H3 H4]. destruct Am as (M1 & M2 & M3). rewrite !Z.add_0_r in *. intros A N.
    assert (Z1 : a = k \/ a = k + 1) by (clear - H1; lia). assert (Z2 : b = r \/ b = r + 1) by (clear - H2; lia). assert (Z3 : a' = k \/ a' = k + 1) by (clear - H3; lia). assert (Z4 : b' = r \/ b' = r + 1) by (clear - H4; lia).
    clear H1 H2 H3 H4. destruct Z1, Z2, Z3, Z4; subst a b a' b'; try congruence; (split; [clear; lia|]; split; [clear; lia|congruence]). }
  destruct D as (D1 & D2 & D3). split; [exact D3|]. destruct Pp as [H1 H2]. destruct Pq as [H3 H4]. clear - Qk Qr Ip Iq W1 W2 W3 D1 D2 H1 H2 H3 H4. unfold is_cell. cbn [fst snd]. set (a := col_of cols p) in *. set (b := row_of cols p) in *. set (a' := col_of cols q) in *. set (b' := row_of cols q) in *.
  assert (S1 : row_of cols p = b) by reflexivity. split; [|split].
  - split; [split; assumption|]. split; [split; [exact Ip|]; split; [exact W1|]; left; split; [reflexivity|]; clear - H1 H3 D1; lia|]. split; (split; [|exact H2]); assumption.
  - split; [split; assumption|]. split; [split; [exact Iq|]; split; [exact W1|]; right; split; [reflexivity|]; clear - H2 H4 D2; lia|]. split; (split; [assumption|]); assumption.
  - intro X. pose proof (f_equal fst X) as X1. cbn [fst snd] in X1. clear - X1 D1. lia.
Qed.
(** A closed curve encloses all points that are connected, or none of them *)
Section Inside.
Variable c : list (Z * Z).
Hypothesis Ic : is_curve cols rows above c.
Hypothesis Hl : higher_left cols above c.
Hypothesis Cc : closed_curve c.
Hypothesis Cu : cuts_off cols rows above t c.
Variable g : Z -> bool.
Hypothesis Sp : forall e, side cols rows e -> xorb (g (fst e)) (g (snd e)) = true <-> exists k, In k c /\ same_side e k.
Lemma connected_alike p q : connected is_t p q -> g p = g q.
Proof.
  intro H. induction H as [p|p q r S A H IH|[k r] p q r' Qc Am Ip Iq Pp Pq A T H IH]; [reflexivity|rewrite (uncrossed cols rows above c Ic g Sp p q S A); exact IH|]. rewrite <- IH. clear IH H.
  destruct (Z.eq_dec p q) as [E|N]; [congruence|]. destruct (across_corner k r p q Qc Am Ip Iq Pp Pq A N) as (w & Aw & S1 & S2 & Nm).
  assert (Aw2 : above w = negb (t (k, r))) by (rewrite T; destruct (above w), (above p); cbn in *; congruence).
  assert (Eq : (exists e, In e c /\ same_side (p, w) e) <-> (exists e, In e c /\ same_side (q, w) e)).
  { split; [apply (both cols rows C1 above c Ic Hl Cc t Cu k r (p, w) (q, w) w)|apply (both cols rows C1 above c Ic Hl Cc t Cu k r (q, w) (p, w) w)]; cbn [fst snd]; auto. }
  pose proof (Sp (p, w) (proj1 (proj2 S1))) as P5. pose proof (Sp (q, w) (proj1 (proj2 S2))) as P6. rewrite Eq, <- P6 in P5. cbn [fst snd] in P5.
  destruct (g p), (g q), (g w); cbn in P5; try reflexivity; exfalso; destruct P5 as [P5 P5']; first [discriminate (P5 eq_refl)|discriminate (P5' eq_refl)].
Qed.
End Inside.
End Hill.

(** A way to compute connected points *)
Section Grow.
Variables cols rows : Z.
Variable above : Z -> bool.
Definition sideb (p q : Z) : bool := ((row_of cols p =? row_of cols q) && (Z.abs (col_of cols p - col_of cols q) =? 1)) || ((col_of cols p =? col_of cols q) && (Z.abs (row_of cols p - row_of cols q) =? 1)).
Definition points : list Z := map Z.of_nat (seq 0 (Z.to_nat (cols * rows))).
Fixpoint grow (n : nat) (s : list Z) : list Z :=
  match n with O => s | S n => grow n (s ++ filter (fun q => negb (existsb (Z.eqb q) s) && existsb (fun p => sideb p q && Bool.eqb (above p) (above q)) s) points) end.
Lemma in_points p : In p points <-> in_mesh cols rows p.
Proof.
  unfold points, in_mesh. rewrite in_map_iff. split; [intros (i & <- & H); apply in_seq in H; lia|]. intros [H1 H2]. exists (Z.to_nat p). split; [lia|]. apply in_seq. lia.
Qed.
Lemma grow_connected kn a n : forall s, (forall p, In p s -> in_mesh cols rows p /\ connected cols rows above kn a p) -> forall p, In p (grow n s) -> connected cols rows above kn a p.
Proof.
  induction n as [|n IH]; intros s Hs p Hp; [apply Hs; exact Hp|]. cbn [grow] in Hp. refine (IH _ _ p Hp). clear p Hp. intros q Hq. apply in_app_or in Hq as [Hq|Hq]; [apply Hs; exact Hq|]. apply filter_In in Hq as [Iq Hq].
  apply andb_true_iff in Hq as [_ Hq]. apply existsb_exists in Hq as (p & Hp & Hs'). apply andb_true_iff in Hs' as [S A]. apply in_points in Iq. split; [exact Iq|]. destruct (Hs p Hp) as [Ip Cp].
  apply (connected_trans _ _ _ _ _ p _ Cp). apply (Beside _ _ _ _ p q q); [|apply eqb_prop; exact A|constructor]. split; [exact Ip|]. split; [exact Iq|]. unfold sideb in S. lia.
Qed.
Definition all_grown (a : bool -> Z) (n : nat) : bool :=
  let gt := grow n [a true] in let gf := grow n [a false] in
  forallb (fun b => (0 <=? a b) && (a b <? cols * rows)) [true; false] && forallb (fun p => existsb (Z.eqb p) (if above p then gt else gf)) points.
Lemma grown kn (a : bool -> Z) n : all_grown a n = true -> forall p q, in_mesh cols rows p -> in_mesh cols rows q -> above p = above q -> connected cols rows above kn p q.
Proof.
  intros H0 p q Ip Iq A. apply andb_true_iff in H0 as [Ha H]. rewrite forallb_forall in Ha, H.
  assert (K : forall p, in_mesh cols rows p -> connected cols rows above kn (a (above p)) p).
  { intros r Ir. apply in_points in Ir. specialize (H r Ir). replace (if above r then grow n [a true] else grow n [a false]) with (grow n [a (above r)]) in H by (destruct (above r); reflexivity).
    apply existsb_exists in H as (r' & Hr & E). apply Z.eqb_eq in E. subst r'. apply (grow_connected kn _ n [a (above r)]); [|exact Hr]. intros x [<-|[]]. split; [|constructor].
    assert (B : In (above r) [true; false]) by (destruct (above r); cbn; auto). specialize (Ha _ B). unfold in_mesh. lia. }
  apply (connected_trans _ _ _ _ _ (a (above p))); [apply connected_sym, K; exact Ip|]. rewrite A. apply K. exact Iq.
Qed.
End Grow.
Lemma beside_same cols rows above above' p q : (forall k, in_mesh cols rows k -> above k = above' k) -> connected cols rows above beside_only p q -> connected cols rows above' beside_only p q.
Proof. intros E H. induction H as [p|p q r S A H IH|k p q r A1 A2 A3 A4 A5 A6 A7 [] H IH]; [constructor|]. apply (Beside _ _ _ _ p q r S); [|exact IH]. rewrite <- !E; [exact A|apply S|apply S]. Qed.

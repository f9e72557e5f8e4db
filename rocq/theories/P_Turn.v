(** C121: which way round contours are drawn. *)
From Coq Require Import Reals Lra Lia Bool Psatz List QArith.
From Verif Require Import M_Base M_Cntr M_Extract S_Cntr S_Lines S_Lines2 S_Border S_Cross S_Turn P_Cntr P_Lines P_Lines2 P_Border P_Cross L_Turn.
Import ListNotations.
Open Scope R_scope.

(** *** C121 *)
(** Any arithmetic, in particular that of double with infinities and NaN *)
Section Any.
Variable num : Type.
Variables add sub mul div : num -> num -> num.
Variable four : num.
Variables gtb eqn : num -> num -> bool.
Notation extract := (extract_contours num add sub mul div four gtb eqn).
Notation above := (above_of num gtb).
Theorem C121_closed_contours_have_the_higher_values_on_their_left fuel mem x y z level : meshed x y z -> enough z fuel ->
  exists curves codes, extract fuel mem x y z level = Ok (drawn num add sub mul div x y z level curves, codes) /\ Forall (is_curve (m_cols num z) (m_rows num z) (above z level)) curves /\
  forall c, In c curves -> (closed_curve c -> higher_left (m_cols num z) (above z level) c) /\ (higher_left (m_cols num z) (above z level) c \/ higher_right (m_cols num z) (above z level) c).
Proof.
  intros M F. destruct (master num add sub mul div four gtb eqn fuel mem x y z level M F) as (T & curves & cd & E & _ & Et & _ & Fc & _). exists curves. eexists. split; [exact E|]. split; [exact Fc|].
  destruct M as (_ & _ & _ & _ & M1 & M2). exact (trace_sides _ _ _ _ fuel mem curves M2 M1 F Et).
Qed.
End Any.
Print Assumptions C121_closed_contours_have_the_higher_values_on_their_left.

(** *** In the plane *)
(** A coordinate in half steps: at a point of the mesh or between two *)
Definition halfway (n : Z) (f : Z -> R) (m : Z) (v : R) : Prop :=
  (exists k, (0 <= k < n)%Z /\ m = (2 * k)%Z /\ v = f k) \/ (exists k a, (0 <= k < n - 1)%Z /\ 0 < a < 1 /\ m = (2 * k + 1)%Z /\ v = f k + a * (f (k + 1)%Z - f k)).
Lemma rising_le n f i j : rising n f -> (0 <= i)%Z -> (i <= j)%Z -> (j < n)%Z -> f i <= f j.
Proof. intros H A B C. destruct (Z.eq_dec i j) as [->|N]; [lra|]. left. apply H; lia. Qed.
Lemma halfway_lt n f r m v : rising n f -> (0 <= r < n)%Z -> halfway n f m v -> ((2 * r < m)%Z -> f r < v) /\ ((m < 2 * r)%Z -> v < f r).
Proof.
  intros I Hr [(k & Hk & -> & ->)|(k & a & Hk & Ha & -> & ->)].
  - split; intro L; apply I; lia.
  - pose proof (I k (k + 1)%Z ltac:(lia) ltac:(lia) ltac:(lia)) as S. split; intro L.
    + pose proof (rising_le n f r k I ltac:(lia) ltac:(lia) ltac:(lia)). nra.
    + pose proof (rising_le n f (k + 1) r I ltac:(lia) ltac:(lia) ltac:(lia)). nra.
Qed.

Lemma zpos (a b : Z) : (0 < a * b)%Z -> ((0 < a /\ 0 < b) \/ (a < 0 /\ b < 0))%Z.
Proof. intro H. apply Z.lt_0_mul in H. lia. Qed.
Section Plane.
Variables cols rows : Z.
Hypothesis C1 : (1 <= cols)%Z.
Variables xs ys : Z -> R.
Hypothesis RX : rising cols xs.
Hypothesis RY : rising rows ys.
(** What is known of a vertex: where it is, and the middle of its side *)
Definition on_side (m : Z * Z) (u : R * R) : Prop := halfway cols xs (fst m) (fst u) /\ halfway rows ys (snd m) (snd u).
Lemma same_sign u v (me mf : Z * Z) i r : on_side me u -> on_side mf v -> (0 <= i < cols)%Z -> (0 <= r < rows)%Z ->
  (fst me = 2 * i)%Z /\ fst u = xs i \/ (snd me = 2 * r)%Z /\ snd u = ys r ->
  ((0 < leftness me mf (2 * i, 2 * r))%Z -> 0 < cross u v (xs i, ys r)) /\ ((leftness me mf (2 * i, 2 * r) < 0)%Z -> cross u v (xs i, ys r) < 0).
Proof.
  intros [Ux Uy] [Vx Vy] Hi Hr A. unfold leftness, cross. cbn [fst snd].
  destruct (halfway_lt cols xs i _ _ RX Hi Ux) as [U1 U2]. destruct (halfway_lt rows ys r _ _ RY Hr Uy) as [U3 U4].
  destruct A as [[A1 A2]|[A1 A2]]; rewrite A1, A2.
  - destruct (halfway_lt cols xs i _ _ RX Hi Vx) as [V1 V2]. split; intro L.
    + destruct (zpos (fst mf - 2 * i) (2 * r - snd me) ltac:(lia)) as [[B C]|[B C]]; [specialize (U4 ltac:(lia)); specialize (V1 ltac:(lia))|specialize (U3 ltac:(lia)); specialize (V2 ltac:(lia))]; nra.
    + destruct (zpos (fst mf - 2 * i) (snd me - 2 * r) ltac:(lia)) as [[B C]|[B C]]; [specialize (U3 ltac:(lia)); specialize (V1 ltac:(lia))|specialize (U4 ltac:(lia)); specialize (V2 ltac:(lia))]; nra.
  - destruct (halfway_lt rows ys r _ _ RY Hr Vy) as [V1 V2]. split; intro L.
    + destruct (zpos (snd mf - 2 * r) (fst me - 2 * i) ltac:(lia)) as [[B C]|[B C]]; [specialize (U1 ltac:(lia)); specialize (V1 ltac:(lia))|specialize (U2 ltac:(lia)); specialize (V2 ltac:(lia))]; nra.
    + destruct (zpos (snd mf - 2 * r) (2 * i - fst me) ltac:(lia)) as [[B C]|[B C]]; [specialize (U2 ltac:(lia)); specialize (V1 ltac:(lia))|specialize (U1 ltac:(lia)); specialize (V2 ltac:(lia))]; nra.
Qed.
End Plane.

Section Grid.
Variables x y z : mat R.
Notation cols := (m_cols R z).
Notation rows := (m_rows R z).
Variables xs ys : Z -> R.
Hypothesis C1 : (1 <= cols)%Z.
Hypothesis RX : rising cols xs.
Hypothesis RY : rising rows ys.
Hypothesis AX : forall k, in_mesh cols rows k -> m_at R x k = xs (col_of cols k) /\ m_at R y k = ys (row_of cols k).
Variable level : R.
Hypothesis Ms : misses_the_level z level.
Notation V := (vertex R Rplus Rminus Rmult Rdiv x y z level).
Notation above := (above_of R Rgtb z level).
Lemma middle_same e g : same_side e g -> middle cols e = middle cols g.
Proof. intros [->| ->]; [reflexivity|]. unfold middle. cbn. f_equal; apply Z.add_comm. Qed.
(** A vertex and the ends of its side *)
Lemma vertex_side e : side cols rows e -> crossed above e -> on_side cols rows xs ys (middle cols e) (V e) /\
  forall p, p = fst e \/ p = snd e -> exists i r, (0 <= i < cols)%Z /\ (0 <= r < rows)%Z /\ place_of cols p = (2 * i, 2 * r)%Z /\ node x y p = (xs i, ys r) /\
    ((fst (middle cols e) = 2 * i)%Z /\ fst (V e) = xs i \/ (snd (middle cols e) = 2 * r)%Z /\ snd (V e) = ys r).
Proof.
  intros Se Ce. assert (MX : monotone_axis cols xs) by (left; exact RX). assert (MY : monotone_axis rows ys) by (left; exact RY).
  assert (K : forall i r, (0 <= i < cols)%Z -> (0 <= r < rows)%Z -> in_mesh cols rows (i + r * cols)%Z /\ col_of cols (i + r * cols)%Z = i /\ row_of cols (i + r * cols)%Z = r) by (intros; apply at_coords; assumption).
  destruct (point_placed x y z xs ys C1 AX level Ms e Se Ce) as [(i & r & a & Ha & Hi & Hr & Ee & S1)|(i & r & a & Ha & Hi & Hr & Ee & S1)].
  - destruct (K i r ltac:(lia) Hr) as (K1 & K2 & K3). destruct (K (i + 1)%Z r ltac:(lia) Hr) as (K4 & K5 & K6).
    assert (Mi : middle cols e = (2 * i + 1, 2 * r)%Z) by (rewrite (middle_same e _ S1); unfold middle; cbn [fst snd]; rewrite K2, K3, K5, K6; f_equal; lia). rewrite Mi, Ee. split.
    + split; cbn [fst snd]; [right; exists i, a; auto|left; exists r; auto].
    + intros p Hp. assert (Hp' : p = (i + r * cols)%Z \/ p = (i + 1 + r * cols)%Z) by (destruct e as [e1 e2]; destruct S1 as [S1|S1]; injection S1 as S1 S2; cbn [fst snd] in Hp; destruct Hp; subst; auto).
      destruct Hp' as [-> | ->]; [exists i, r|exists (i + 1)%Z, r]; (split; [lia|]); (split; [lia|]); unfold place_of, node; rewrite ?K2, ?K3, ?K5, ?K6; (split; [reflexivity|]); (split; [destruct (AX _ K1) as [X1 Y1], (AX _ K4) as [X4 Y4]; rewrite ?X1, ?Y1, ?X4, ?Y4, ?K2, ?K3, ?K5, ?K6; reflexivity|]); right; auto.
  - destruct (K i r Hi ltac:(lia)) as (K1 & K2 & K3). destruct (K i (r + 1)%Z Hi ltac:(lia)) as (K4 & K5 & K6).
    assert (Mi : middle cols e = (2 * i, 2 * r + 1)%Z) by (rewrite (middle_same e _ S1); unfold middle; cbn [fst snd]; rewrite K2, K3, K5, K6; f_equal; lia). rewrite Mi, Ee. split.
    + split; cbn [fst snd]; [left; exists i; auto|right; exists r, a; auto].
    + intros p Hp. assert (Hp' : p = (i + r * cols)%Z \/ p = (i + (r + 1) * cols)%Z) by (destruct e as [e1 e2]; destruct S1 as [S1|S1]; injection S1 as S1 S2; cbn [fst snd] in Hp; destruct Hp; subst; auto).
      destruct Hp' as [-> | ->]; [exists i, r|exists i, (r + 1)%Z]; (split; [lia|]); (split; [lia|]); unfold place_of, node; rewrite ?K2, ?K3, ?K5, ?K6; (split; [reflexivity|]); (split; [destruct (AX _ K1) as [X1 Y1], (AX _ K4) as [X4 Y4]; rewrite ?X1, ?Y1, ?X4, ?Y4, ?K2, ?K3, ?K5, ?K6; reflexivity|]); left; auto.
Qed.
Lemma plane_left c e f p : is_curve cols rows above c -> higher_left cols above c -> next_in c e f -> p = fst e \/ p = snd e ->
  (above p = true -> to_the_left (V e) (V f) (node x y p)) /\ (above p = false -> to_the_right (V e) (V f) (node x y p)).
Proof.
  intros Ic Hl Hn Hp. assert (Ie : In e c /\ In f c) by (destruct Hn as [l1 [l2 ->]]; split; apply in_or_app; right; [left|right; left]; reflexivity).
  destruct (cv_sides _ _ _ _ Ic e (proj1 Ie)) as [Se Ce]. destruct (cv_sides _ _ _ _ Ic f (proj2 Ie)) as [Sf Cf].
  destruct (vertex_side e Se Ce) as [Oe He]. destruct (vertex_side f Sf Cf) as [Of _]. destruct (He p Hp) as (i & r & Hi & Hr & Pp & Np & A).
  destruct (Hl e f p Hn) as [L1 L2]; [unfold end_of; tauto|]. rewrite Pp in L1, L2. rewrite Np. destruct (same_sign cols rows xs ys RX RY (V e) (V f) _ _ i r Oe Of Hi Hr A) as [S1 S2].
  unfold to_the_left, to_the_right. auto.
Qed.
End Grid.
Lemma rising_monotone x y z : with_rising_axes x y z -> with_axes x y z.
Proof. intros (xs & ys & A & B & C). exists xs, ys. split; [left; exact A|]. split; [left; exact B|]. exact C. Qed.

(** Every vertex u of a closed contour lies on a side of the mesh between a node p above the level and a node q below; whoever goes along the contour from u to the next vertex has p on
    the left and q on the right. *)
Theorem C121_higher_values_on_the_left_in_the_plane : forall fuel mem x y z level segments codes, meshed x y z -> with_rising_axes x y z -> misses_the_level z level -> enough z fuel ->
  extractR fuel mem x y z level = Ok (segments, codes) -> forall vs u v, In (Verts R vs) segments -> closed_outline vs -> goes vs u v ->
  exists p q t, side (m_cols R z) (m_rows R z) (p, q) /\ m_at R z p > level /\ m_at R z q < level /\ 0 < t < 1 /\ m_at R z p + t * (m_at R z q - m_at R z p) = level /\ between x y p q t u /\ to_the_left u v (node x y p) /\ to_the_right u v (node x y q).
Proof.
  intros fuel mem x y z level segments codes M (xs & ys & RX & RY & AX) Ms F E vs u v Hvs Cl (l1 & l2 & Hg). assert (C1 : (1 <= m_cols R z)%Z) by apply M.
  destruct (C121_closed_contours_have_the_higher_values_on_their_left R Rplus Rminus Rmult Rdiv 4 Rgtb Reqb fuel mem x y z level M F) as (curves & cd & E' & Fc & Hl). unfold extractR in E. rewrite E' in E. injection E as <- _.
  unfold drawn in Hvs. apply in_map_iff in Hvs as (c & Ec & Hc). injection Ec as Ec. rewrite Forall_forall in Fc. pose proof (Fc c Hc) as Ic.
  assert (Cc : closed_curve c).
  { destruct (cv_ends _ _ _ _ Ic) as [Cc|(e & f & (m1 & B1) & (m2 & B2) & _ & _ & NS)]; [exact Cc|]. exfalso. apply NS.
    assert (Ie : In e c) by (rewrite B1; left; reflexivity). assert (If : In f c) by (rewrite B2; apply in_or_app; right; left; reflexivity).
    destruct (cv_sides _ _ _ _ Ic e Ie) as [Se Ce]. destruct (cv_sides _ _ _ _ Ic f If) as [Sf Cf]. apply (points_apart x y z xs ys C1 (or_introl RX) (or_introl RY) AX level Ms); try assumption.
    destruct Cl as (w & k1 & k2 & E1 & E2 & _). rewrite <- Ec in E1, E2. rewrite B1 in E1. cbn [map] in E1. injection E1 as E1 _. rewrite B2, map_app in E2. cbn [map] in E2. apply app_inj_tail in E2 as [_ E2]. congruence. }
  destruct (Hl c Hc) as [HL _]. specialize (HL Cc). rewrite <- Ec in Hg. destruct (drawn_split _ _ _ _ _ _ _ _ _ Hg) as (e & f & Hn & -> & ->).
  pose proof (plane_left x y z xs ys C1 RX RY AX level Ms c e f) as PL. assert (Ie : In e c) by (destruct Hn as [k1 [k2 ->]]; apply in_or_app; right; left; reflexivity).
  destruct (cv_sides _ _ _ _ Ic e Ie) as [Se Ce]. pose proof (vertex_meets x y z level e Ce) as (t & Et & Bt). destruct e as [a b]. cbn [fst snd] in *.
  destruct (PL a Ic HL Hn (or_introl eq_refl)) as [A1 A2]. destruct (PL b Ic HL Hn (or_intror eq_refl)) as [B1 B2].
  destruct Se as (Ia & Ib & Ad). pose proof (Ms a Ia) as Na. pose proof (Ms b Ib) as Nb. unfold crossed, above_of in Ce, A1, A2, B1, B2. cbn [fst snd] in Ce.
  destruct (Rgtb (m_at R z a) level) eqn:Ga, (Rgtb (m_at R z b) level) eqn:Gb; try (exfalso; apply Ce; reflexivity).
  - apply Rgtb_true in Ga. apply Rgtb_false in Gb. exists a, b, t. split; [split; [exact Ia|split; [exact Ib|exact Ad]]|]. split; [exact Ga|]. split; [lra|]. split; [split; nra|]. split; [exact Et|]. auto.
  - apply Rgtb_false in Ga. apply Rgtb_true in Gb. exists b, a, (1 - t). split; [split; [exact Ib|split; [exact Ia|lia]]|]. split; [exact Gb|]. split; [lra|]. split; [split; nra|]. split; [lra|]. split; [|auto]. unfold between in *. rewrite Bt. f_equal; ring.
Qed.
Print Assumptions C121_higher_values_on_the_left_in_the_plane.

(** With the sign of the field reversed the contours are drawn in the opposite direction: what one of them has from u to v, the other never has from u to v.  (By C104 they are made of
    the same lines.) *)
Theorem C121_reversed_field_reverses_the_direction : forall fuel mem fuel' mem' x y z level s c s' c', meshed x y z -> with_rising_axes x y z -> misses_the_level z level -> enough z fuel -> enough z fuel' ->
  extractR fuel mem x y z level = Ok (s, c) -> extractR fuel' mem' x y (negated z) (- level) = Ok (s', c') ->
  forall vs vs' u v, In (Verts R vs) s -> In (Verts R vs') s' -> closed_outline vs -> closed_outline vs' -> goes vs u v -> ~ goes vs' u v.
Proof.
  intros fuel mem fuel' mem' x y z level s c s' c' M RA Ms F F' E E' vs vs' u v Hv Hv' Cl Cl' G G'.
  assert (M' : meshed x y (negated z)) by exact M. assert (Ms' : misses_the_level (negated z) (- level)) by (intros k Hk; cbn; pose proof (Ms k Hk); lra).
  destruct (C121_higher_values_on_the_left_in_the_plane _ _ _ _ _ _ _ _ M RA Ms F E vs u v Hv Cl G) as (p & q & t & Sd & Hp & Hq & Ht & Et & Bt & L1 & L2).
  destruct (C121_higher_values_on_the_left_in_the_plane fuel' mem' x y (negated z) (- level) s' c' M' RA Ms' F' E' vs' u v Hv' Cl' G') as (p' & q' & t' & Sd' & Hp' & Hq' & Ht' & Et' & Bt' & L1' & L2').
  change (m_at R (negated z) p') with (- m_at R z p') in *. change (m_at R (negated z) q') with (- m_at R z q') in *. change (m_cols R (negated z)) with (m_cols R z) in *. change (m_rows R (negated z)) with (m_rows R z) in *.
  assert (Cr : crossed (above_of R Rgtb z level) (p, q)) by (unfold crossed, above_of; cbn [fst snd]; rewrite (proj2 (Rgtb_true _ _)), (proj2 (Rgtb_false _ _)); [discriminate|lra|lra]).
  assert (Cr' : crossed (above_of R Rgtb z level) (p', q')) by (unfold crossed, above_of; cbn [fst snd]; rewrite (proj2 (Rgtb_false (m_at R z p') _)), (proj2 (Rgtb_true (m_at R z q') _)); [discriminate|lra|lra]).
  pose proof (meets_vertex x y z level (p, q) u Cr ltac:(exists t; split; [exact Et|exact Bt])) as U1. pose proof (meets_vertex x y z level (p', q') u Cr' ltac:(exists t'; cbn [fst snd]; split; [lra|exact Bt'])) as U2.
  destruct RA as (xs & ys & RX & RY & AX). assert (C1 : (1 <= m_cols R z)%Z) by apply M.
  pose proof (points_apart x y z xs ys C1 (or_introl RX) (or_introl RY) AX level Ms (p, q) (p', q') Sd Cr Sd' Cr' ltac:(congruence)) as Sm.
  destruct Sm as [Sm|Sm]; injection Sm as -> ->; [lra|]. unfold to_the_left, to_the_right in *. lra.
Qed.
Print Assumptions C121_reversed_field_reverses_the_direction.

(** *** The hypotheses are met *)
(** A summit: one closed contour *)
Lemma peak_above : above_of R Rgtb peakZ (1 / 2) = (fun k => (k =? 4)%Z).
Proof. apply FunctionalExtensionality.functional_extensionality. intro k. unfold above_of. cbn. destruct (k =? 4)%Z; [apply Rgtb_true; lra|apply Rgtb_false; lra]. Qed.
Lemma peak_centre : centre_of R Rplus Rdiv 4 Rgtb peakZ (1 / 2) = (fun p q r s => (2 <? (if p =? 4 then 1 else 0) + (if q =? 4 then 1 else 0) + (if r =? 4 then 1 else 0) + (if s =? 4 then 1 else 0)))%Z.
Proof.
  repeat (apply FunctionalExtensionality.functional_extensionality; intro). unfold centre_of. cbn. destruct (x =? 4)%Z, (x0 =? 4)%Z, (x1 =? 4)%Z, (x2 =? 4)%Z; cbn; first [apply Rgtb_true; lra|apply Rgtb_false; lra].
Qed.
Lemma low_above : above_of R Rgtb (negated peakZ) (- (1 / 2)) = (fun k => negb (k =? 4)%Z).
Proof. apply FunctionalExtensionality.functional_extensionality. intro k. unfold above_of. cbn. destruct (k =? 4)%Z; [apply Rgtb_false; lra|apply Rgtb_true; lra]. Qed.
Lemma low_centre : centre_of R Rplus Rdiv 4 Rgtb (negated peakZ) (- (1 / 2)) = (fun p q r s => ((if p =? 4 then 1 else 0) + (if q =? 4 then 1 else 0) + (if r =? 4 then 1 else 0) + (if s =? 4 then 1 else 0) <? 2))%Z.
Proof.
  repeat (apply FunctionalExtensionality.functional_extensionality; intro). unfold centre_of. cbn. destruct (x =? 4)%Z, (x0 =? 4)%Z, (x1 =? 4)%Z, (x2 =? 4)%Z; cbn; first [apply Rgtb_true; lra|apply Rgtb_false; lra].
Qed.
Lemma peak_rising : with_rising_axes peakX peakY peakZ.
Proof. exists IZR, IZR. split; [intros i j _ L _; apply IZR_lt, L|]. split; [intros i j _ L _; apply IZR_lt, L|]. intros k _. split; reflexivity. Qed.
Lemma peak_curves : exists s c, extractR 60 (fun _ => blank) peakX peakY peakZ (1 / 2) = Ok (s, c) /\ s = drawn R Rplus Rminus Rmult Rdiv peakX peakY peakZ (1 / 2) [[(4, 1); (4, 5); (4, 7); (4, 3); (4, 1)]%Z].
Proof.
  assert (M : meshed peakX peakY peakZ) by (unfold meshed; cbn; lia). assert (F : enough peakZ 60) by (unfold enough; cbn; lia).
  destruct (master R Rplus Rminus Rmult Rdiv 4 Rgtb Reqb 60 (fun _ => blank) peakX peakY peakZ (1 / 2) M F) as (T & curves & cd & E & _ & Et & _). eexists. eexists. split; [exact E|].
  rewrite peak_above, peak_centre in Et. vm_compute in Et. injection Et as <-. reflexivity.
Qed.
Lemma low_curves : exists s c, extractR 60 (fun _ => blank) peakX peakY (negated peakZ) (- (1 / 2)) = Ok (s, c) /\ s = drawn R Rplus Rminus Rmult Rdiv peakX peakY (negated peakZ) (- (1 / 2)) [[(1, 4); (3, 4); (7, 4); (5, 4); (1, 4)]%Z].
Proof.
  assert (M : meshed peakX peakY (negated peakZ)) by (unfold meshed; cbn; lia). assert (F : enough (negated peakZ) 60) by (unfold enough; cbn; lia).
  destruct (master R Rplus Rminus Rmult Rdiv 4 Rgtb Reqb 60 (fun _ => blank) peakX peakY (negated peakZ) (- (1 / 2)) M F) as (T & curves & cd & E & _ & Et & _). eexists. eexists. split; [exact E|].
  rewrite low_above, low_centre in Et. vm_compute in Et. injection Et as <-. reflexivity.
Qed.
Example C121_case : meshed peakX peakY peakZ /\ with_rising_axes peakX peakY peakZ /\ misses_the_level peakZ (1 / 2) /\ enough peakZ 60 /\
  exists s c vs u v s' c' vs', extractR 60 (fun _ => blank) peakX peakY peakZ (1 / 2) = Ok (s, c) /\ In (Verts R vs) s /\ closed_outline vs /\ goes vs u v /\
    extractR 60 (fun _ => blank) peakX peakY (negated peakZ) (- (1 / 2)) = Ok (s', c') /\ In (Verts R vs') s' /\ closed_outline vs' /\ goes vs' v u.
Proof.
  split; [unfold meshed; cbn; lia|]. split; [exact peak_rising|]. split; [intros k _; cbn; destruct (k =? 4)%Z; lra|]. split; [unfold enough; cbn; lia|].
  destruct peak_curves as (s & c & E & ->). destruct low_curves as (s' & c' & E' & ->). eexists. exists c. eexists. eexists. eexists. eexists. exists c'. eexists.
  split; [exact E|]. split; [left; reflexivity|]. split; [apply closed_map; [cbn; lia|]; exists (4, 1)%Z; split; [eexists; reflexivity|exists [(4, 1); (4, 5); (4, 7); (4, 3)]%Z; reflexivity]|].
  split; [exists [], (map (vertex R Rplus Rminus Rmult Rdiv peakX peakY peakZ (1 / 2)) [(4, 7); (4, 3); (4, 1)]%Z); reflexivity|].
  split; [exact E'|]. split; [left; reflexivity|]. split; [apply closed_map; [cbn; lia|]; exists (1, 4)%Z; split; [eexists; reflexivity|exists [(1, 4); (3, 4); (7, 4); (5, 4)]%Z; reflexivity]|].
  exists (map (vertex R Rplus Rminus Rmult Rdiv peakX peakY (negated peakZ) (- (1 / 2))) [(1, 4); (3, 4); (7, 4)]%Z), []. cbn [map app].
  assert (A : forall k, k <> 4%Z -> vertex R Rplus Rminus Rmult Rdiv peakX peakY (negated peakZ) (- (1 / 2)) (k, 4%Z) = vertex R Rplus Rminus Rmult Rdiv peakX peakY peakZ (1 / 2) (4%Z, k)).
  { intros k Hk. unfold vertex. cbn [fst snd]. unfold negated. cbn. destruct (Z.eqb_spec k 4) as [|_]; [contradiction|]. f_equal; field. }
  rewrite (A 5%Z), (A 1%Z) by discriminate. reflexivity.
Qed.
(** Open lines: a field falling and one rising with the longitude; both lines are drawn from below upwards, so one has the higher values on its left and the other on its right *)
Example C121_open_lines :
  (exists c, cntr_trace 3 3 (fun k => k mod 3 =? 0)%Z (fun _ _ _ _ => false) 60 (fun _ => blank) = Ok [c] /\ higher_left 3 (fun k => k mod 3 =? 0)%Z c /\ ~ higher_right 3 (fun k => k mod 3 =? 0)%Z c) /\
  (exists c, cntr_trace 3 3 (fun k => k mod 3 =? 2)%Z (fun _ _ _ _ => false) 60 (fun _ => blank) = Ok [c] /\ ~ higher_left 3 (fun k => k mod 3 =? 2)%Z c /\ higher_right 3 (fun k => k mod 3 =? 2)%Z c).
Proof.
  split; eexists; (split; [vm_compute; reflexivity|]).
  - destruct (trace_sides 3 3 (fun k => k mod 3 =? 0)%Z (fun _ _ _ _ => false) 60 (fun _ => blank) [[(0, 1); (3, 4); (7, 6)]%Z] ltac:(lia) ltac:(lia) ltac:(cbn; lia) ltac:(vm_compute; reflexivity) _ (or_introl eq_refl)) as [_ D].
    assert (N : ~ higher_right 3 (fun k => k mod 3 =? 0)%Z [(0, 1); (3, 4); (7, 6)]%Z).
    { intro H. destruct (H (0, 1)%Z (3, 4)%Z 0%Z ltac:(exists [], [(7, 6)%Z]; reflexivity) ltac:(left; reflexivity)) as [K _]. specialize (K eq_refl). vm_compute in K. discriminate K. }
    split; [destruct D; [assumption|contradiction]|exact N].
  - destruct (trace_sides 3 3 (fun k => k mod 3 =? 2)%Z (fun _ _ _ _ => false) 60 (fun _ => blank) [[(1, 2); (4, 5); (8, 7)]%Z] ltac:(lia) ltac:(lia) ltac:(cbn; lia) ltac:(vm_compute; reflexivity) _ (or_introl eq_refl)) as [_ D].
    assert (N : ~ higher_left 3 (fun k => k mod 3 =? 2)%Z [(1, 2); (4, 5); (8, 7)]%Z).
    { intro H. destruct (H (1, 2)%Z (4, 5)%Z 2%Z ltac:(exists [], [(8, 7)%Z]; reflexivity) ltac:(right; left; reflexivity)) as [K _]. specialize (K eq_refl). vm_compute in K. discriminate K. }
    split; [exact N|destruct D; [contradiction|assumption]].
Qed.

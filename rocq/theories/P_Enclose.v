(** C125: what closed contours enclose.  C126: every closed contour encloses an extremum. *)
From Coq Require Import Reals Lra Lia Bool Psatz List ZifyBool.
From Verif Require Import M_Base M_Cntr M_Extract S_Cntr S_Lines S_Lines2 S_Border S_Cross S_Turn S_Enclose P_Cntr P_Lines P_Lines2 P_Border P_Cross P_Turn L_Turn L_Loop.
Import ListNotations.
Open Scope Z_scope.

(** *** From the curves of the tracer *)
Lemma nat_odd_Z n : Nat.odd n = Z.odd (Z.of_nat n).
Proof. rewrite <- Nat.negb_even, <- Z.negb_even. f_equal. induction n as [|n IH]; [reflexivity|]. rewrite Nat.even_succ, <- Nat.negb_even, IH. replace (Z.of_nat (S n)) with (Z.succ (Z.of_nat n)) by lia. rewrite Z.even_succ, Z.negb_even. reflexivity. Qed.
Lemma filter_sum {A} (f : A -> bool) l : Z.of_nat (length (filter f l)) = sum (fun a => Z.b2z (f a)) l.
Proof. induction l as [|a l IH]; [reflexivity|]. cbn. fold (sum (fun a => Z.b2z (f a)) l). destruct (f a); cbn [length Z.b2z]; lia. Qed.
Section Curves.
Variables cols rows : Z.
Variable above : Z -> bool.
Hypothesis C1 : 1 <= cols.
Variable c : list (Z * Z).
Hypothesis Ic : is_curve cols rows above c.
Hypothesis Cc : closed_curve c.
Lemma at_same e f : side cols rows e -> side cols rows f -> is_at cols (middle cols e) f = same_sideb e f.
Proof.
  intros Se Sf. apply eq_true_iff_eq. rewrite same_sideb_iff. unfold is_at. rewrite andb_true_iff, !Z.eqb_eq. split.
  - intros [A B]. apply (mid_same cols rows C1); try assumption. destruct (middle cols e), (middle cols f). cbn in *. congruence.
  - intro H. rewrite (same_mid cols _ _ H). auto.
Qed.
Lemma passes_visits e : side cols rows e -> passes cols c (middle cols e) = Z.of_nat (visits e c).
Proof.
  intro Se. unfold visits. rewrite (proj2 (repeats_iff c (cv_length _ _ _ _ Ic)) Cc). rewrite filter_sum. apply sum_ext. intros f Hf. rewrite at_same; [reflexivity|exact Se|].
  apply (cv_sides _ _ _ _ Ic). apply (once_in cols rows above c Ic Cc). exact Hf.
Qed.
Lemma visited e : In e c -> (1 <= visits e c)%nat.
Proof.
  intro H. unfold visits. rewrite (proj2 (repeats_iff c (cv_length _ _ _ _ Ic)) Cc). apply (once_in cols rows above c Ic Cc) in H. unfold once in H.
  assert (K : In e (filter (same_sideb e) (removelast c))) by (apply filter_In; split; [exact H|apply same_sideb_iff; left; reflexivity]). destruct (filter _ _); [destruct K|cbn; lia].
Qed.
Lemma eastern_beyond p e : in_mesh cols rows p -> In e c -> eastern cols p e = beyond cols 1 (col_of cols p) (row_of cols p) e.
Proof.
  intros Ip He. destruct (cv_sides _ _ _ _ Ic e He) as [Se _]. unfold eastern, beyond. destruct (side_mid cols rows C1 e Se) as [(k & r & Hk & Hr & E & S1)|(k & r & Hk & Hr & E & S1)]; rewrite E; cbn [fst snd].
  - destruct (at_coords cols rows k r ltac:(lia) Hr) as (_ & X1 & Y1). destruct (at_coords cols rows (k + 1) r ltac:(lia) Hr) as (_ & X2 & Y2).
    destruct e as [a b], S1 as [S1|S1]; injection S1 as <- <-; cbn [fst snd]; rewrite X1, Y1, X2, Y2; lia.
  - destruct (at_coords cols rows k r ltac:(lia) ltac:(lia)) as (_ & X1 & Y1). destruct (at_coords cols rows k (r + 1) ltac:(lia) ltac:(lia)) as (_ & X2 & Y2).
    destruct e as [a b], S1 as [S1|S1]; injection S1 as <- <-; cbn [fst snd]; rewrite X1, Y1, X2, Y2; lia.
Qed.
Lemma encloses_inside p : in_mesh cols rows p -> encloses cols c p <-> inside_at cols c 1 p = true.
Proof.
  intro Ip. unfold encloses, inside_at, within, number. rewrite nat_odd_Z, filter_sum. rewrite (sum_ext _ (fun e => Z.b2z (beyond cols 1 (col_of cols p) (row_of cols p) e))); [reflexivity|].
  intros e He. rewrite eastern_beyond; [reflexivity|exact Ip|]. apply (once_in cols rows above c Ic Cc). exact He.
Qed.
End Curves.
(** A side crossed by the level belongs to one of the curves, which goes through it once *)
Lemma total_ge e c curves : In c curves -> (visits e c <= total_visits e curves)%nat.
Proof. induction curves as [|d l IH]; [intros []|]. unfold total_visits. cbn [fold_right]. fold (total_visits e l). intros [->|H]; [lia|]. specialize (IH H). lia. Qed.
Lemma goes_through_iff c p q : goes_through c p q <-> exists g, In g c /\ same_side (p, q) g.
Proof. unfold goes_through, same_side. cbn [fst snd]. split; [intros [H|H]; eexists; (split; [exact H|]); auto|]. intros (g & H & [->| ->]); auto. Qed.

(** A greatest element *)
Lemma greatest {num} (g : num -> num -> bool) (P : Z -> bool) (h : Z -> num) : (forall a, g a a = false) -> (forall a b d, g a b = true -> g b d = true -> g a d = true) ->
  forall n, (exists k, 0 <= k < Z.of_nat n /\ P k = true) -> exists k, 0 <= k < Z.of_nat n /\ P k = true /\ forall j, 0 <= j < Z.of_nat n -> P j = true -> g (h j) (h k) = false.
Proof.
  intros Ir Tr. induction n as [|n IH]; [intros (k & Hk & _); lia|]. intros (k & Hk & Pk).
  destruct (existsb P (map Z.of_nat (seq 0 n))) eqn:Ex.
  - apply existsb_exists in Ex as (j & Hj & Pj). apply in_map_iff in Hj as (m & <- & Hm). apply in_seq in Hm. destruct IH as (b & Hb & Pb & Gb); [exists (Z.of_nat m); split; [lia|exact Pj]|].
    destruct (P (Z.of_nat n) && g (h (Z.of_nat n)) (h b))%bool eqn:D.
    + apply andb_true_iff in D as [D1 D2]. exists (Z.of_nat n). split; [lia|]. split; [exact D1|]. intros i Hi Pi. destruct (Z.eq_dec i (Z.of_nat n)) as [->|N]; [apply Ir|]. specialize (Gb i ltac:(lia) Pi).
      destruct (g (h i) (h (Z.of_nat n))) eqn:X; [|reflexivity]. rewrite (Tr _ _ _ X D2) in Gb. discriminate Gb.
    + exists b. split; [lia|]. split; [exact Pb|]. intros i Hi Pi. destruct (Z.eq_dec i (Z.of_nat n)) as [->|N]; [rewrite Pi in D; exact D|]. apply Gb; [lia|exact Pi].
  - assert (K : k = Z.of_nat n).
    { destruct (Z.eq_dec k (Z.of_nat n)) as [e|N]; [exact e|]. exfalso. enough (existsb P (map Z.of_nat (seq 0 n)) = true) by congruence. apply existsb_exists. exists k. split; [|exact Pk]. apply in_map_iff. exists (Z.to_nat k). split; [lia|apply in_seq; lia]. }
    subst k. exists (Z.of_nat n). split; [lia|]. split; [exact Pk|]. intros i Hi Pi. destruct (Z.eq_dec i (Z.of_nat n)) as [->|N]; [apply Ir|]. exfalso. enough (existsb P (map Z.of_nat (seq 0 n)) = true) by congruence.
    apply existsb_exists. exists i. split; [|exact Pi]. apply in_map_iff. exists (Z.to_nat i). split; [lia|apply in_seq; lia].
Qed.
(** Inside a closed curve there is a point which none of its neighbours surpasses *)
Lemma extremum {num} (gtb : num -> num -> bool) (gtb_irr : forall a, gtb a a = false) (gtb_trans : forall a b d, gtb a b = true -> gtb b d = true -> gtb a d = true) (z : mat num) (level : num) c sx :
  let cols := m_cols num z in let rows := m_rows num z in 1 <= cols -> 1 <= rows -> is_curve cols rows (above_of num gtb z level) c -> higher_left cols (above_of num gtb z level) c -> closed_curve c -> sx = 1 \/ sx = -1 ->
  (forall e, In e c -> passes cols c (middle cols e) = 1) -> exists p, in_mesh cols rows p /\ inside_at cols c sx p = true /\
    ((above_of num gtb z level p = true /\ forall q, side cols rows (p, q) -> gtb (m_at num z q) (m_at num z p) = false) \/
     (above_of num gtb z level p = false /\ forall q, side cols rows (p, q) -> gtb (m_at num z p) (m_at num z q) = false)).
Proof.
  intros cols rows M2 M1 Ic Hl Cc SX Un. set (above := above_of num gtb z level) in *.
  pose proof (separated cols rows above M2 c Ic Hl Cc sx SX Un) as Sp.
  pose proof (high_ends_alike cols rows above M2 c Ic Hl Cc sx SX Un) as Al. pose proof (ends_two cols rows above M2 c Ic Hl Cc sx SX Un) as Tw.
  destruct (closed_form cols rows above c Ic Cc) as (e0 & m0 & E0). assert (I0 : In e0 c) by (rewrite E0; left; reflexivity). clear E0 m0.
  destruct (Tw e0 I0) as (T1 & T2 & T3 & T4 & T5 & T6). destruct (cv_sides _ _ _ _ Ic e0 I0) as [S0 _].
  assert (Im : in_mesh cols rows (high_end above e0) /\ in_mesh cols rows (low_end above e0)).
  { destruct e0 as [a b], S0 as (Ia & Ib & _). cbn [fst snd] in T5, T6. destruct T5 as [-> | ->], T6 as [-> | ->]; auto. }
  assert (Bd : forall k, in_mesh cols rows k <-> 0 <= k < Z.of_nat (Z.to_nat (cols * rows))) by (intro k; unfold in_mesh; assert (0 <= cols * rows) by nia; rewrite Z2Nat.id by lia; reflexivity).
  (* what is on the other side of a side of which one end is enclosed *)
  assert (Ot : forall p q, side cols rows (p, q) -> inside_at cols c sx p = true -> inside_at cols c sx q = false -> above p = inside_at cols c sx (high_end above e0) /\ above q = negb (inside_at cols c sx (high_end above e0))).
  { intros p q S P Q. assert (X : xorb (inside_at cols c sx (fst (p, q))) (inside_at cols c sx (snd (p, q))) = true) by (cbn [fst snd]; rewrite P, Q; reflexivity). apply (Sp (p, q) S) in X as (g & Hg & G).
    destruct (Tw g Hg) as (G1 & G2 & G3 & G4 & _ & _). rewrite <- (Al g e0 Hg I0). destruct (cv_sides _ _ _ _ Ic g Hg) as [_ Cg]. unfold crossed in Cg.
    assert (Pg : p = fst g \/ p = snd g) by (destruct G as [-> | ->]; cbn [fst snd]; auto). assert (Ap : above q = negb (above p)) by (destruct G as [-> | ->]; cbn [fst snd] in Cg; destruct (above p), (above q); cbn; congruence).
    rewrite Ap. destruct (G4 p Pg) as [X1 X2]. destruct (above p) eqn:A; [rewrite <- (X1 eq_refl), P; auto|]. rewrite G3, <- (X2 eq_refl), P. auto. }
  destruct (inside_at cols c sx (high_end above e0)) eqn:Hi.
  - destruct (greatest gtb (fun k => inside_at cols c sx k && above k)%bool (m_at num z) gtb_irr gtb_trans (Z.to_nat (cols * rows))) as (p & Hp & Pp & Gp);
      [exists (high_end above e0); split; [apply Bd; apply Im|rewrite Hi, T1; reflexivity]|].
    apply Bd in Hp. apply andb_true_iff in Pp as [Pp Ab]. exists p. split; [exact Hp|]. split; [exact Pp|]. left. split; [exact Ab|]. intros q S.
    destruct (gtb (m_at num z q) (m_at num z p)) eqn:X; [|reflexivity]. assert (Aq : above q = true) by (unfold above, above_of in *; exact (gtb_trans _ _ _ X Ab)).
    destruct (inside_at cols c sx q) eqn:Q; [|destruct (Ot p q S Pp Q) as [_ B]; cbn [negb] in B; congruence].
    rewrite (Gp q) in X; [discriminate X|apply Bd; apply S|rewrite Q, Aq; reflexivity].
  - assert (Lo : inside_at cols c sx (low_end above e0) = true) by (destruct (inside_at cols c sx (low_end above e0)); [reflexivity|discriminate T3]).
    destruct (greatest (fun a b => gtb b a) (fun k => inside_at cols c sx k && negb (above k))%bool (m_at num z) gtb_irr (fun a b d X Y => gtb_trans _ _ _ Y X) (Z.to_nat (cols * rows))) as (p & Hp & Pp & Gp);
      [exists (low_end above e0); split; [apply Bd; apply Im|rewrite Lo, T2; reflexivity]|].
    apply Bd in Hp. apply andb_true_iff in Pp as [Pp Ab]. apply negb_true_iff in Ab. exists p. split; [exact Hp|]. split; [exact Pp|]. right. split; [exact Ab|]. intros q S.
    destruct (gtb (m_at num z p) (m_at num z q)) eqn:X; [|reflexivity]. assert (Aq : above q = false) by (unfold above, above_of in *; destruct (gtb (m_at num z q) level) eqn:Y; [rewrite (gtb_trans _ _ _ X Y) in Ab; discriminate Ab|reflexivity]).
    destruct (inside_at cols c sx q) eqn:Q; [|destruct (Ot p q S Pp Q) as [_ B]; cbn [negb] in B; congruence].
    rewrite (Gp q) in X; [discriminate X|apply Bd; apply S|rewrite Q, Aq; reflexivity].
Qed.

(** *** C125 on the mesh, C126 on the mesh *)
(** Any arithmetic, in particular that of double with infinities and NaN *)
Section Any.
Variable num : Type.
Variables add sub mul div : num -> num -> num.
Variable four : num.
Variables gtb eqn : num -> num -> bool.
Notation extract := (extract_contours num add sub mul div four gtb eqn).
Notation above := (above_of num gtb).
(** The curves, with everything known of the closed ones *)
Lemma closed_curves fuel mem x y z level : meshed x y z -> enough z fuel ->
  exists curves codes, extract fuel mem x y z level = Ok (drawn num add sub mul div x y z level curves, codes) /\ Forall (is_curve (m_cols num z) (m_rows num z) (above z level)) curves /\
  forall c, In c curves -> closed_curve c -> higher_left (m_cols num z) (above z level) c /\ forall e, In e c -> passes (m_cols num z) c (middle (m_cols num z) e) = 1.
Proof.
  intros M F. destruct (master num add sub mul div four gtb eqn fuel mem x y z level M F) as (T & curves & cd & E & _ & Et & _ & Fc & Tv & _). exists curves. eexists. split; [exact E|]. split; [exact Fc|].
  destruct M as (_ & _ & _ & _ & M1 & M2). intros c Hc Cc. split; [exact (proj1 (trace_sides _ _ _ _ fuel mem curves M2 M1 F Et c Hc) Cc)|]. intros e He. rewrite Forall_forall in Fc. pose proof (Fc c Hc) as Ic.
  destruct (cv_sides _ _ _ _ Ic e He) as [Se Ce]. rewrite (passes_visits _ (m_rows num z) (above z level) M2 c Ic Cc e Se). pose proof (visited _ _ _ c Ic Cc e He) as V1. pose proof (total_ge e c curves Hc) as V2.
  assert (D : 2 <= m_cols num z /\ 2 <= m_rows num z).
  { pose proof (cv_length _ _ _ _ Ic) as L. destruct c as [|a [|b l]]; [cbn in L; lia|cbn in L; lia|]. destruct (cv_steps _ _ _ _ Ic a b) as [_ (q & ([A B] & _) & _)]; [exists [], l; reflexivity|]. lia. }
  rewrite (Tv (proj1 D) (proj2 D) e Se Ce) in V2. lia.
Qed.

Theorem C125_what_closed_contours_enclose_on_the_mesh fuel mem x y z level : meshed x y z -> enough z fuel ->
  exists curves codes, extract fuel mem x y z level = Ok (drawn num add sub mul div x y z level curves, codes) /\
  forall c, In c curves -> closed_curve c ->
    (forall p, border_point (m_cols num z) (m_rows num z) p -> ~ encloses (m_cols num z) c p) /\
    (forall p q, side (m_cols num z) (m_rows num z) (p, q) -> (goes_through c p q <-> ~ (encloses (m_cols num z) c p <-> encloses (m_cols num z) c q))) /\
    ((forall p q, goes_through c p q -> encloses (m_cols num z) c p -> above z level p = true /\ above z level q = false) \/
     (forall p q, goes_through c p q -> encloses (m_cols num z) c p -> above z level p = false /\ above z level q = true)).
Proof.
  intros M F. destruct (closed_curves fuel mem x y z level M F) as (curves & codes & E & Fc & Hc). exists curves, codes. split; [exact E|]. intros c Ic0 Cc. destruct (Hc c Ic0 Cc) as [Hl Un].
  rewrite Forall_forall in Fc. pose proof (Fc c Ic0) as Ic. assert (M2 : 1 <= m_cols num z) by apply M.
  set (cols := m_cols num z) in *. set (rows := m_rows num z) in *. pose proof (encloses_inside cols rows (above z level) M2 c Ic Cc) as En.
  pose proof (separated cols rows (above z level) M2 c Ic Hl Cc 1 (or_introl eq_refl) Un) as Sp.
  split; [|split].
  - intros p [Ip Bp] K. apply (En p Ip) in K. rewrite (border_outside cols rows (above z level) M2 c Ic Hl Cc 1 (or_introl eq_refl) p Ip Bp) in K. discriminate K.
  - intros p q S. rewrite goes_through_iff, <- (Sp (p, q) S). destruct S as (Ip & Iq & _). rewrite (En p Ip), (En q Iq). cbn [fst snd]. destruct (inside_at cols c 1 p), (inside_at cols c 1 q); cbn; intuition congruence.
  - destruct (closed_form cols rows (above z level) c Ic Cc) as (e0 & m0 & E0). assert (I0 : In e0 c) by (rewrite E0; left; reflexivity).
    pose proof (high_ends_alike cols rows (above z level) M2 c Ic Hl Cc 1 (or_introl eq_refl) Un) as Al. pose proof (ends_two cols rows (above z level) M2 c Ic Hl Cc 1 (or_introl eq_refl) Un) as Tw.
    assert (G : forall p q, goes_through c p q -> encloses cols c p -> above z level p = inside_at cols c 1 (high_end (above z level) e0) /\ above z level q = negb (inside_at cols c 1 (high_end (above z level) e0))).
    { intros p q H K. assert (Ex : exists g, In g c /\ ((p = fst g /\ q = snd g) \/ (p = snd g /\ q = fst g))) by (destruct H as [H|H]; eexists; (split; [exact H|]); auto).
      destruct Ex as (g & Hg & P). destruct (cv_sides _ _ _ _ Ic g Hg) as [Sg Cg]. assert (Ip : in_mesh cols rows p) by (destruct g as [a b], Sg as (Ia & Ib & _); cbn [fst snd] in P; destruct P as [[-> _]|[-> _]]; assumption).
      apply (En p Ip) in K. rewrite <- (Al g e0 Hg I0). destruct (Tw g Hg) as (T1 & T2 & T3 & T4 & T5 & T6).
      assert (Ap : above z level q = negb (above z level p)) by (unfold crossed in Cg; destruct P as [[-> ->]|[-> ->]]; destruct (above z level (fst g)), (above z level (snd g)); cbn; congruence).
      rewrite Ap. destruct (T4 p ltac:(tauto)) as [X1 X2]. destruct (above z level p) eqn:A; [rewrite <- (X1 eq_refl), K; auto|]. rewrite T3, <- (X2 eq_refl), K. auto. }
    destruct (inside_at cols c 1 (high_end (above z level) e0)); [left|right]; intros p q H K; exact (G p q H K).
Qed.

Hypothesis gtb_irr : forall a, gtb a a = false.
Hypothesis gtb_trans : forall a b d, gtb a b = true -> gtb b d = true -> gtb a d = true.
Theorem C126_closed_contours_enclose_an_extremum_on_the_mesh fuel mem x y z level : meshed x y z -> enough z fuel ->
  exists curves codes, extract fuel mem x y z level = Ok (drawn num add sub mul div x y z level curves, codes) /\
  forall c, In c curves -> closed_curve c -> exists p, in_mesh (m_cols num z) (m_rows num z) p /\ encloses (m_cols num z) c p /\
    ((above z level p = true /\ forall q, side (m_cols num z) (m_rows num z) (p, q) -> gtb (m_at num z q) (m_at num z p) = false) \/
     (above z level p = false /\ forall q, side (m_cols num z) (m_rows num z) (p, q) -> gtb (m_at num z p) (m_at num z q) = false)).
Proof.
  intros M F. destruct (closed_curves fuel mem x y z level M F) as (curves & codes & E & Fc & Hc). exists curves, codes. split; [exact E|]. intros c Ic0 Cc. destruct (Hc c Ic0 Cc) as [Hl Un].
  rewrite Forall_forall in Fc. pose proof (Fc c Ic0) as Ic. assert (M2 : 1 <= m_cols num z) by apply M. assert (M1 : 1 <= m_rows num z) by apply M.
  destruct (extremum gtb gtb_irr gtb_trans z level c 1 M2 M1 Ic Hl Cc (or_introl eq_refl) Un) as (p & Ip & Pp & Ex). exists p. split; [exact Ip|]. split; [|exact Ex].
  apply (encloses_inside (m_cols num z) (m_rows num z) (above z level) M2 c Ic Cc p Ip). exact Pp.
Qed.
End Any.
Print Assumptions C125_what_closed_contours_enclose_on_the_mesh.
Print Assumptions C126_closed_contours_enclose_an_extremum_on_the_mesh.

(** *** In the plane *)
Open Scope R_scope.
Lemma greater_true a b : greater a b = true <-> b < a. Proof. unfold greater. destruct (Rlt_dec b a); split; intro; try discriminate; auto; contradiction. Qed.
Lemma greater_iff a b (t : bool) : (t = true -> b < a) -> (t = false -> a <= b) -> greater a b = t.
Proof. intros H K. unfold greater. destruct (Rlt_dec b a) as [L|L], t; try reflexivity; [specialize (K eq_refl); lra|specialize (H eq_refl); contradiction]. Qed.
Lemma lines_steps vs : lines_of vs = steps vs.
Proof. induction vs as [|u l IH]; [reflexivity|]. destruct l as [|v l]; [reflexivity|]. rewrite steps_cons, <- IH. reflexivity. Qed.
Lemma axis_sign n f : monotone_axis n f -> exists s, (s = 1 \/ s = -1)%Z /\ rising n (fun k => IZR s * f k).
Proof. intros [M|M]; [exists 1%Z|exists (-1)%Z]; (split; [auto|]); intros i j A B C; specialize (M i j A B C); lra. Qed.
Lemma halfway_sign n f s m v r : (s = 1 \/ s = -1)%Z -> rising n (fun k => IZR s * f k) -> (0 <= r < n)%Z -> halfway n f m v -> greater v (f r) = (s * (2 * r) <? s * m)%Z /\ ((m = 2 * r)%Z -> v = f r).
Proof.
  intros Hs I Hr H. assert (H' : halfway n (fun k => IZR s * f k) m (IZR s * v)).
  { destruct H as [(k & Hk & -> & ->)|(k & a & Hk & Ha & -> & ->)]; [left; exists k; auto|right; exists k, a; split; [exact Hk|]; split; [exact Ha|]; split; [reflexivity|ring]]. }
  destruct (halfway_lt n _ r _ _ I Hr H') as [H1 H2]. cbv beta in H1, H2.
  assert (H3 : (m = 2 * r)%Z -> v = f r) by (intro E; destruct H as [(k & Hk & Em & ->)|(k & a & Hk & Ha & Em & ->)]; [assert (k = r) by lia; subst; reflexivity|lia]).
  split; [|exact H3]. destruct (Z.lt_trichotomy m (2 * r)) as [L|[L|L]].
  - specialize (H2 L). apply greater_iff; intro T; destruct Hs as [-> | ->]; try lia; lra.
  - rewrite (H3 L). apply greater_iff; intro T; [destruct Hs as [-> | ->]; lia|lra].
  - specialize (H1 ltac:(lia)). apply greater_iff; intro T; destruct Hs as [-> | ->]; try lia; lra.
Qed.

Section Plane.
Variables x y z : mat R.
Notation cols := (m_cols R z).
Notation rows := (m_rows R z).
Variables xs ys : Z -> R.
Hypothesis C1 : (1 <= cols)%Z.
Hypothesis MX : monotone_axis cols xs.
Hypothesis MY : monotone_axis rows ys.
Hypothesis AX : forall k, in_mesh cols rows k -> m_at R x k = xs (col_of cols k) /\ m_at R y k = ys (row_of cols k).
Variable level : R.
Hypothesis Ms : misses_the_level z level.
Notation V := (vertex R Rplus Rminus Rmult Rdiv x y z level).
Notation above := (above_of R Rgtb z level).
Lemma vertex_at e : side cols rows e -> crossed above e -> halfway cols xs (fst (middle cols e)) (fst (V e)) /\ halfway rows ys (snd (middle cols e)) (snd (V e)).
Proof.
  intros Se Ce. assert (K : forall i r, (0 <= i < cols)%Z -> (0 <= r < rows)%Z -> in_mesh cols rows (i + r * cols)%Z /\ col_of cols (i + r * cols)%Z = i /\ row_of cols (i + r * cols)%Z = r) by (intros; apply at_coords; assumption).
  destruct (point_placed x y z xs ys C1 AX level Ms e Se Ce) as [(i & r & a & Ha & Hi & Hr & Ee & S1)|(i & r & a & Ha & Hi & Hr & Ee & S1)].
  - destruct (K i r ltac:(lia) Hr) as (_ & K2 & K3). destruct (K (i + 1)%Z r ltac:(lia) Hr) as (_ & K5 & K6).
    assert (Mi : middle cols e = (2 * i + 1, 2 * r)%Z) by (rewrite (middle_same z e _ S1); unfold middle; cbn [fst snd]; rewrite K2, K3, K5, K6; f_equal; lia). rewrite Mi, Ee.
    split; cbn [fst snd]; [right; exists i, a; auto|left; exists r; auto].
  - destruct (K i r Hi ltac:(lia)) as (_ & K2 & K3). destruct (K i (r + 1)%Z Hi ltac:(lia)) as (_ & K5 & K6).
    assert (Mi : middle cols e = (2 * i, 2 * r + 1)%Z) by (rewrite (middle_same z e _ S1); unfold middle; cbn [fst snd]; rewrite K2, K3, K5, K6; f_equal; lia). rewrite Mi, Ee.
    split; cbn [fst snd]; [left; exists i; auto|right; exists r, a; auto].
Qed.
Variable c : list (Z * Z).
Hypothesis Ic : is_curve cols rows above c.
Hypothesis Hl : higher_left cols above c.
Hypothesis Cc : closed_curve c.
Variables sx sy : Z.
Hypothesis SX : (sx = 1 \/ sx = -1)%Z.
Hypothesis SY : (sy = 1 \/ sy = -1)%Z.
Hypothesis RX : rising cols (fun k => IZR sx * xs k).
Hypothesis RY : rising rows (fun k => IZR sy * ys k).
(** The even-odd rule in the plane counts the same crossings as the one on the mesh *)
Lemma ray_number i r : (0 <= i < cols)%Z -> (0 <= r < rows)%Z ->
  Z.of_nat (length (filter (fun s => crosses_east (xs i, ys r) (fst s) (snd s)) (lines_of (map V c)))) = number cols c sx i r.
Proof.
  intros Hi Hr. rewrite lines_steps, steps_map, filter_sum.
  set (F := fun p : (Z * Z) * (Z * Z) => Z.b2z (beyond cols sx i r (fst p) && (sy * snd (middle cols (fst p)) <? sy * snd (middle cols (snd p)))%Z)).
  set (G := fun p : (Z * Z) * (Z * Z) => Z.b2z (beyond cols sx i r (snd p) && (sy * snd (middle cols (snd p)) <? sy * snd (middle cols (fst p)))%Z)).
  assert (E : sum (fun p => F p + G p)%Z (steps c) = sum (fun e => Z.b2z (beyond cols sx i r e)) (once c)).
  { apply (around cols rows above c Ic Cc). intros d e f H1 H2. unfold F, G. cbn [fst snd]. pose proof (pass cols rows above C1 c Ic Hl d e f H1 H2) as P. unfold beyond.
    destruct (middle cols d) as [xd yd], (middle cols e) as [xe ye], (middle cols f) as [xf yf]. cbn [fst snd] in *.
    destruct P as [(k & p & _ & _ & E & P)|(k & p & _ & _ & E & P)]; (assert (E1 : xe = fst (xe, ye)) by reflexivity; assert (E2 : ye = snd (xe, ye)) by reflexivity; rewrite E in E1, E2; cbn [fst snd] in E1, E2; clear E; subst xe ye).
    - clear - P SX SY. destruct SX as [-> | ->], SY as [-> | ->], P as [P|P]; lia.
    - clear - SX SY. destruct SX as [-> | ->], SY as [-> | ->]; lia. }
  unfold number. rewrite <- E. clear E.
  assert (Sm : forall l, (forall p, In p l -> In p (steps c)) -> sum (fun a => Z.b2z (crosses_east (xs i, ys r) (fst a) (snd a))) (map (fun p => (V (fst p), V (snd p))) l) = sum (fun p => F p + G p)%Z l).
  { induction l as [|[e f] l IH]; intro H; [reflexivity|]. cbn [map sum fold_right]. unfold sum in IH. rewrite IH by (intros; apply H; right; assumption). f_equal. pose proof (H _ (or_introl eq_refl)) as St. cbn [fst snd].
    destruct (step_in _ _ _ c Ic Hl e f St) as [Ie If]. destruct (cv_sides _ _ _ _ Ic e Ie) as [Se Ce]. destruct (cv_sides _ _ _ _ Ic f If) as [Sf Cf]. destruct (vertex_at e Se Ce) as [Ex Ey]. destruct (vertex_at f Sf Cf) as [Fx Fy].
    destruct (halfway_sign _ _ _ _ _ i SX RX Hi Ex) as [GEx _]. destruct (halfway_sign _ _ _ _ _ i SX RX Hi Fx) as [GFx _].
    destruct (halfway_sign _ _ _ _ _ r SY RY Hr Ey) as [GEy QEy]. destruct (halfway_sign _ _ _ _ _ r SY RY Hr Fy) as [GFy QFy].
    destruct (step_cell cols rows above C1 c Ic Hl e f St) as [_ (k & q & _ & _ & _ & _ & B1 & B2)].
    unfold crosses_east, F, G, beyond. cbn [fst snd]. rewrite GEy, GFy.
    set (xe := fst (middle cols e)) in *. set (ye := snd (middle cols e)) in *. set (xf := fst (middle cols f)) in *. set (yf := snd (middle cols f)) in *. clearbody xe ye xf yf.
    destruct (sy * (2 * r) <? sy * ye)%Z eqn:A, (sy * (2 * r) <? sy * yf)%Z eqn:B; cbn [xorb andb Z.b2z].
    - destruct SY as [-> | ->]; lia.
    - assert (Y : yf = (2 * r)%Z) by (clear - A B B1 B2 SY; destruct SY as [-> | ->]; lia). specialize (QFy Y). assert (Ne : snd (V e) <> ys r).
      { intro X. unfold greater in GEy. rewrite X in GEy. destruct (Rlt_dec (ys r) (ys r)); [lra|discriminate GEy]. }
      replace (fst (V e) + (ys r - snd (V e)) * (fst (V f) - fst (V e)) / (snd (V f) - snd (V e))) with (fst (V f)) by (rewrite QFy; field; lra). rewrite GFx. clear - Y A B SX SY. destruct SX as [-> | ->], SY as [-> | ->]; lia.
    - assert (Y : ye = (2 * r)%Z) by (clear - A B B1 B2 SY; destruct SY as [-> | ->]; lia). specialize (QEy Y). rewrite QEy.
      replace (fst (V e) + (ys r - ys r) * (fst (V f) - fst (V e)) / (snd (V f) - ys r)) with (fst (V e)) by (unfold Rdiv; ring). rewrite GEx. clear - Y A B SX SY. destruct SX as [-> | ->], SY as [-> | ->]; lia.
    - destruct SY as [-> | ->]; lia. }
  exact (Sm (steps c) (fun p H => H)).
Qed.
Lemma inside_plane p : in_mesh cols rows p -> inside_of (map V c) (node x y p) <-> inside_at cols c sx p = true.
Proof.
  intro Ip. destruct (coords cols rows p C1 Ip) as (P1 & P2 & _). unfold inside_of, inside_at, within, node. destruct (AX p Ip) as [-> ->]. rewrite nat_odd_Z, ray_number by assumption. reflexivity.
Qed.
(** A vertex between two neighbouring points is one where the curve goes through their side *)
Notation placed e v := (on_row z xs ys e v \/ on_column z xs ys e v).
Lemma placed_same e f v : placed e v -> placed f v -> same_side e f.
Proof.
  intros [(i & r & a & Ha & Hi & Hr & Ee & S1)|(i & r & a & Ha & Hi & Hr & Ee & S1)] [(i' & r' & a' & Ha' & Hi' & Hr' & Ef & S2)|(i' & r' & a' & Ha' & Hi' & Hr' & Ef & S2)]; rewrite Ef in Ee; injection Ee as E1 E2.
  - apply (axis_inj _ _ _ _ MY Hr' Hr) in E2. subst r'. destruct (axis_meet cols xs i' i a' a MX Hi' Hi ltac:(lra) ltac:(lra) E1) as [[-> _]|[(_ & B & _)|(_ & B & _)]]; [|lra|lra]. exact (same_side_via _ _ _ S1 S2).
  - exfalso. exact (axis_inside cols xs i i' a MX Hi Hi' Ha E1).
  - exfalso. apply (axis_inside cols xs i' i a' MX Hi' Hi Ha'). symmetry. exact E1.
  - apply (axis_inj _ _ _ _ MX Hi' Hi) in E1. subst i'. destruct (axis_meet rows ys r' r a' a MY Hr' Hr ltac:(lra) ltac:(lra) E2) as [[-> _]|[(_ & B & _)|(_ & B & _)]]; [|lra|lra]. exact (same_side_via _ _ _ S1 S2).
Qed.
Lemma between_placed p q t v : side cols rows (p, q) -> 0 < t < 1 -> between x y p q t v -> placed (p, q) v.
Proof.
  intros (Ip & Iq & Ad) T Bt. unfold between in Bt. rewrite Bt. destruct (AX p Ip) as [Xp Yp]. destruct (AX q Iq) as [Xq Yq]. rewrite Xp, Xq, Yp, Yq.
  destruct (coords cols rows p C1 Ip) as (P1 & P2 & P3). destruct (coords cols rows q C1 Iq) as (Q1 & Q2 & Q3).
  set (a := col_of cols p) in *. set (b := row_of cols p) in *. set (a' := col_of cols q) in *. set (b' := row_of cols q) in *. clearbody a b a' b'.
  destruct Ad as [[-> Ad]|[-> Ad]].
  - left. destruct (Z_lt_ge_dec a a') as [L|L].
    + assert (a' = a + 1)%Z by lia. subst a'. exists a, b', t. split; [exact T|]. split; [lia|]. split; [exact Q2|]. split; [f_equal; ring|]. left. rewrite P3, Q3. reflexivity.
    + assert (a = a' + 1)%Z by lia. subst a. exists a', b', (1 - t). split; [lra|]. split; [lia|]. split; [exact Q2|]. split; [f_equal; ring|]. right. cbn [fst snd]. rewrite P3, Q3. reflexivity.
  - right. destruct (Z_lt_ge_dec b b') as [L|L].
    + assert (b' = b + 1)%Z by lia. subst b'. exists a', b, t. split; [exact T|]. split; [exact Q1|]. split; [lia|]. split; [f_equal; ring|]. left. rewrite P3, Q3. reflexivity.
    + assert (b = b' + 1)%Z by lia. subst b. exists a', b', (1 - t). split; [lra|]. split; [exact Q1|]. split; [lia|]. split; [f_equal; ring|]. right. cbn [fst snd]. rewrite P3, Q3. reflexivity.
Qed.
Lemma vertex_between p q : side cols rows (p, q) -> (exists g, In g c /\ same_side (p, q) g) <-> exists v t, In v (map V c) /\ 0 < t < 1 /\ between x y p q t v.
Proof.
  intro S. split.
  - intros (g & Hg & Sg). destruct (cv_sides _ _ _ _ Ic g Hg) as [Sd Cr]. exists (V g). pose proof (vertex_meets x y z level g Cr) as (t & Et & Bt).
    assert (T : 0 < t < 1).
    { clear Bt Sg. destruct g as [a b]. cbn [fst snd] in *. destruct Sd as (Ia & Ib & _). pose proof (Ms a Ia) as Na. pose proof (Ms b Ib) as Nb. unfold crossed, above_of, Rgtb in Cr. cbn [fst snd] in Cr. split; apply Rnot_le_lt; intro T;
      (destruct (Rlt_dec level (m_at R z a)) as [A|A], (Rlt_dec level (m_at R z b)) as [B|B]; try (apply Cr; reflexivity); nra). }
    assert (Hv : In (V g) (map V c)) by (apply in_map; exact Hg).
    destruct Sg as [-> | ->]; cbn [fst snd] in *; [exists t|exists (1 - t)]; (split; [exact Hv|]); (split; [lra|]); [exact Bt|]. unfold between in *. rewrite Bt. f_equal; ring.
  - intros (v & t & Hv & Ht & Bt). apply in_map_iff in Hv as (g & Ev & Hg). exists g. split; [exact Hg|]. destruct (cv_sides _ _ _ _ Ic g Hg) as [Sd Cr].
    apply (placed_same _ _ v); [exact (between_placed _ _ _ _ S Ht Bt)|]. rewrite <- Ev. exact (point_placed x y z xs ys C1 AX level Ms g Sd Cr).
Qed.
End Plane.

(** A closed outline was drawn for a closed curve *)
Lemma outline_curve fuel mem x y z level segments codes vs : meshed x y z -> with_axes x y z -> misses_the_level z level -> enough z fuel -> extractR fuel mem x y z level = Ok (segments, codes) -> In (Verts R vs) segments -> closed_outline vs ->
  exists c, vs = map (vertex R Rplus Rminus Rmult Rdiv x y z level) c /\ is_curve (m_cols R z) (m_rows R z) (above_of R Rgtb z level) c /\ closed_curve c /\ higher_left (m_cols R z) (above_of R Rgtb z level) c /\
    forall e, In e c -> passes (m_cols R z) c (middle (m_cols R z) e) = 1%Z.
Proof.
  intros M (xs & ys & MX & MY & AX) Ms F E Hvs Cl. assert (C1 : (1 <= m_cols R z)%Z) by apply M. destruct (closed_curves R Rplus Rminus Rmult Rdiv 4 Rgtb Reqb fuel mem x y z level M F) as (curves & cd & E' & Fc & Hc).
  unfold extractR in E. rewrite E' in E. injection E as <- _. unfold drawn in Hvs. apply in_map_iff in Hvs as (c & Ec & Ic0). injection Ec as Ec. rewrite Forall_forall in Fc. pose proof (Fc c Ic0) as Ic.
  assert (Cc : closed_curve c).
  { destruct (cv_ends _ _ _ _ Ic) as [Cc|(e & f & (m1 & B1) & (m2 & B2) & _ & _ & NS)]; [exact Cc|]. exfalso. apply NS.
    assert (Ie : In e c) by (rewrite B1; left; reflexivity). assert (If : In f c) by (rewrite B2; apply in_or_app; right; left; reflexivity).
    destruct (cv_sides _ _ _ _ Ic e Ie) as [Se Ce]. destruct (cv_sides _ _ _ _ Ic f If) as [Sf Cf]. apply (points_apart x y z xs ys C1 MX MY AX level Ms); try assumption.
    destruct Cl as (w & k1 & k2 & E1 & E2 & _). rewrite <- Ec in E1, E2. rewrite B1 in E1. cbn [map] in E1. injection E1 as E1 _. rewrite B2, map_app in E2. cbn [map] in E2. apply app_inj_tail in E2 as [_ E2]. congruence. }
  exists c. split; [symmetry; exact Ec|]. split; [exact Ic|]. split; [exact Cc|]. exact (Hc c Ic0 Cc).
Qed.

(** A node is [next to] an outline, with q on the other side: a vertex of the outline lies strictly between p and its neighbour q. *)
Definition vertex_on (x y : mat R) (vs : list (R * R)) (p q : Z) : Prop := exists v t, In v vs /\ 0 < t < 1 /\ between x y p q t v.
Theorem C125_what_closed_contours_enclose : forall fuel mem x y z level segments codes, meshed x y z -> with_axes x y z -> misses_the_level z level -> enough z fuel ->
  extractR fuel mem x y z level = Ok (segments, codes) -> forall vs, In (Verts R vs) segments -> closed_outline vs ->
  (forall p, border_point (m_cols R z) (m_rows R z) p -> ~ inside_of vs (node x y p)) /\
  (forall p q, side (m_cols R z) (m_rows R z) (p, q) -> (vertex_on x y vs p q <-> ~ (inside_of vs (node x y p) <-> inside_of vs (node x y q)))) /\
  ((forall p q, side (m_cols R z) (m_rows R z) (p, q) -> vertex_on x y vs p q -> inside_of vs (node x y p) -> m_at R z p > level /\ m_at R z q < level) \/
   (forall p q, side (m_cols R z) (m_rows R z) (p, q) -> vertex_on x y vs p q -> inside_of vs (node x y p) -> m_at R z p < level /\ m_at R z q > level)).
Proof.
  intros fuel mem x y z level segments codes M A Ms F E vs Hvs Cl. destruct (outline_curve _ _ _ _ _ _ _ _ _ M A Ms F E Hvs Cl) as (c & -> & Ic & Cc & Hl & Un). destruct A as (xs & ys & MX & MY & AX).
  assert (C1 : (1 <= m_cols R z)%Z) by apply M. destruct (axis_sign _ _ MX) as (sx & SX & RX). destruct (axis_sign _ _ MY) as (sy & SY & RY).
  set (cols := m_cols R z) in *. set (rows := m_rows R z) in *. set (above := above_of R Rgtb z level) in *. set (V := vertex R Rplus Rminus Rmult Rdiv x y z level) in *.
  pose proof (inside_plane x y z xs ys C1 AX level Ms c Ic Hl Cc sx sy SX SY RX RY) as Pl. fold cols rows V in Pl.
  pose proof (separated cols rows above C1 c Ic Hl Cc sx SX Un) as Sp. pose proof (vertex_between x y z xs ys C1 MX MY AX level Ms c Ic) as Vb. fold cols rows V in Vb.
  split; [|split].
  - intros p [Ip Bp] K. apply (Pl p Ip) in K. rewrite (border_outside cols rows above C1 c Ic Hl Cc sx SX p Ip Bp) in K. discriminate K.
  - intros p q S. unfold vertex_on. rewrite <- (Vb p q S), <- (Sp (p, q) S). destruct S as (Ip & Iq & _). rewrite (Pl p Ip), (Pl q Iq). cbn [fst snd]. destruct (inside_at cols c sx p), (inside_at cols c sx q); cbn; intuition congruence.
  - destruct (closed_form cols rows above c Ic Cc) as (e0 & m0 & E0). assert (I0 : In e0 c) by (rewrite E0; left; reflexivity). clear E0 m0.
    pose proof (high_ends_alike cols rows above C1 c Ic Hl Cc sx SX Un) as Al. pose proof (ends_two cols rows above C1 c Ic Hl Cc sx SX Un) as Tw.
    assert (Z0 : forall p, in_mesh cols rows p -> (above p = true -> m_at R z p > level) /\ (above p = false -> m_at R z p < level)).
    { intros p Ip. pose proof (Ms p Ip). unfold above, above_of. split; intro K; [apply Rgtb_true in K; lra|apply Rgtb_false in K; lra]. }
    assert (G : forall p q, side cols rows (p, q) -> vertex_on x y (map V c) p q -> inside_of (map V c) (node x y p) -> above p = inside_at cols c sx (high_end above e0) /\ above q = negb (inside_at cols c sx (high_end above e0))).
    { intros p q S H K. apply (Vb p q S) in H as (g & Hg & G). destruct S as (Ip & Iq & _). apply (Pl p Ip) in K. rewrite <- (Al g e0 Hg I0). destruct (Tw g Hg) as (T1 & T2 & T3 & T4 & T5 & T6). destruct (cv_sides _ _ _ _ Ic g Hg) as [_ Cg]. unfold crossed in Cg.
      assert (Pg : p = fst g \/ p = snd g) by (destruct G as [-> | ->]; cbn [fst snd]; auto). assert (Ap : above q = negb (above p)) by (destruct G as [-> | ->]; cbn [fst snd] in Cg; destruct (above p), (above q); cbn; congruence).
      rewrite Ap. destruct (T4 p Pg) as [X1 X2]. destruct (above p) eqn:B; [rewrite <- (X1 eq_refl), K; auto|]. rewrite T3, <- (X2 eq_refl), K. auto. }
    destruct (inside_at cols c sx (high_end above e0)); [left|right]; intros p q S H K; destruct (G p q S H K) as [A1 A2]; cbn [negb] in *; destruct S as (Ip & Iq & _); split; apply Z0; assumption.
Qed.
Print Assumptions C125_what_closed_contours_enclose.

(** C126: inside every closed contour there is a grid point above the level with no higher neighbour, or one below the level with no lower neighbour. *)
Theorem C126_closed_contours_enclose_an_extremum : forall fuel mem x y z level segments codes, meshed x y z -> with_axes x y z -> misses_the_level z level -> enough z fuel ->
  extractR fuel mem x y z level = Ok (segments, codes) -> forall vs, In (Verts R vs) segments -> closed_outline vs ->
  exists p, in_mesh (m_cols R z) (m_rows R z) p /\ ~ border_point (m_cols R z) (m_rows R z) p /\ inside_of vs (node x y p) /\
    ((m_at R z p > level /\ forall q, side (m_cols R z) (m_rows R z) (p, q) -> m_at R z q <= m_at R z p) \/
     (m_at R z p < level /\ forall q, side (m_cols R z) (m_rows R z) (p, q) -> m_at R z q >= m_at R z p)).
Proof.
  intros fuel mem x y z level segments codes M A Ms F E vs Hvs Cl. destruct (C125_what_closed_contours_enclose _ _ _ _ _ _ _ _ M A Ms F E vs Hvs Cl) as (Bo & _ & _).
  destruct (outline_curve _ _ _ _ _ _ _ _ _ M A Ms F E Hvs Cl) as (c & Ev & Ic & Cc & Hl & Un). destruct A as (xs & ys & MX & MY & AX).
  assert (C1 : (1 <= m_cols R z)%Z) by apply M. assert (R1 : (1 <= m_rows R z)%Z) by apply M. destruct (axis_sign _ _ MX) as (sx & SX & RX). destruct (axis_sign _ _ MY) as (sy & SY & RY).
  assert (Ir : forall a, Rgtb a a = false) by (intro a; apply Rgtb_false; lra). assert (Tr : forall a b d, Rgtb a b = true -> Rgtb b d = true -> Rgtb a d = true) by (intros a b d X Y; apply Rgtb_true in X, Y; apply Rgtb_true; lra).
  destruct (extremum Rgtb Ir Tr z level c sx C1 R1 Ic Hl Cc SX Un) as (p & Ip & Pp & Ex).
  assert (In_p : inside_of vs (node x y p)) by (rewrite Ev; apply (inside_plane x y z xs ys C1 AX level Ms c Ic Hl Cc sx sy SX SY RX RY p Ip); exact Pp).
  exists p. split; [exact Ip|]. split; [intro B; exact (Bo p B In_p)|]. split; [exact In_p|]. pose proof (Ms p Ip) as Np. unfold above_of in Ex. destruct Ex as [[Ab H]|[Ab H]]; [left|right].
  - apply Rgtb_true in Ab. split; [lra|]. intros q S. specialize (H q S). apply Rgtb_false in H. exact H.
  - apply Rgtb_false in Ab. split; [lra|]. intros q S. specialize (H q S). apply Rgtb_false in H. lra.
Qed.
Print Assumptions C126_closed_contours_enclose_an_extremum.

(** *** The hypotheses are met *)
Lemma peak_outline : exists s c vs, extractR 60 (fun _ => blank) peakX peakY peakZ (1 / 2) = Ok (s, c) /\ In (Verts R vs) s /\ closed_outline vs.
Proof.
  destruct peak_curves as (s & c & E & ->). eexists. exists c. eexists. split; [exact E|]. split; [left; reflexivity|].
  apply closed_map; [cbn; lia|]; exists (4, 1)%Z; split; [eexists; reflexivity|exists [(4, 1); (4, 5); (4, 7); (4, 3)]%Z; reflexivity].
Qed.
(** A summit of height 1 in the middle of nine points: the contour of level 1/2 is closed and the summit is inside *)
Example C125_case : meshed peakX peakY peakZ /\ with_axes peakX peakY peakZ /\ misses_the_level peakZ (1 / 2) /\ enough peakZ 60 /\
  exists s c vs, extractR 60 (fun _ => blank) peakX peakY peakZ (1 / 2) = Ok (s, c) /\ In (Verts R vs) s /\ closed_outline vs /\ inside_of vs (node peakX peakY 4).
Proof.
  assert (M : meshed peakX peakY peakZ) by (unfold meshed; cbn; lia). assert (F : enough peakZ 60) by (unfold enough; cbn; lia). assert (Ms : misses_the_level peakZ (1 / 2)) by (intros k _; cbn; destruct (k =? 4)%Z; lra).
  split; [exact M|]. split; [exact peak_axes|]. split; [exact Ms|]. split; [exact F|]. destruct peak_outline as (s & c & vs & E & H & Cl). exists s, c, vs. split; [exact E|]. split; [exact H|]. split; [exact Cl|].
  destruct (C126_closed_contours_enclose_an_extremum _ _ _ _ _ _ _ _ M peak_axes Ms F E vs H Cl) as (p & Ip & Nb & In_p & _). enough (p = 4%Z) by (subst p; exact In_p).
  assert (P : (0 <= p < 9)%Z) by (destruct Ip; cbn in *; lia). assert (D : (p = 0 \/ p = 1 \/ p = 2 \/ p = 3 \/ p = 4 \/ p = 5 \/ p = 6 \/ p = 7 \/ p = 8)%Z) by lia.
  destruct D as [-> |[-> |[-> |[-> |[-> |[-> |[-> |[-> | ->]]]]]]]]; first [reflexivity|exfalso; apply Nb; split; [exact Ip|vm_compute; tauto]].
Qed.
(** On the mesh: a ring of high points around a low one, on 5 x 5 points, has two closed curves, and the point in the middle is enclosed by both *)
Definition ring (k : Z) : bool := existsb (Z.eqb k) [6; 7; 8; 11; 13; 16; 17; 18]%Z.
Definition ringX : mat Z := mkMat Z 5 5 (fun k => k mod 5)%Z.
Definition ringY : mat Z := mkMat Z 5 5 (fun k => k / 5)%Z.
Definition ringZ : mat Z := mkMat Z 5 5 (fun k => if ring k then 4 else 0)%Z.
Example C125_mesh_case : meshed ringX ringY ringZ /\ enough ringZ 200 /\ (forall a, Z.gtb a a = false) /\ (forall a b d, Z.gtb a b = true -> Z.gtb b d = true -> Z.gtb a d = true) /\
  exists c c', (cntr_trace 5 5 (above_of Z Z.gtb ringZ 1) (centre_of Z Z.add Z.div 4 Z.gtb ringZ 1) 200 (fun _ => blank) = Ok [c; c'])%Z /\ closed_curve c /\ closed_curve c' /\ (encloses 5 c 12 /\ encloses 5 c' 12 /\ encloses 5 c 6 /\ ~ encloses 5 c' 6)%Z.
Proof.
  split; [unfold meshed; cbn; lia|]. split; [unfold enough; cbn; lia|]. split; [intro a; rewrite Z.gtb_ltb; apply Z.ltb_irrefl|]. split; [intros a b d; rewrite !Z.gtb_ltb, !Z.ltb_lt; lia|].
  eexists. eexists. split; [vm_compute; reflexivity|]. split; [eexists; split; [eexists; reflexivity|]|split; [eexists; split; [eexists; reflexivity|]|]].
  - match goal with |- finishes ?l ?e => exists (removelast l); reflexivity end.
  - match goal with |- finishes ?l ?e => exists (removelast l); reflexivity end.
  - unfold encloses. repeat split; vm_compute; first [reflexivity|discriminate].
Qed.

(** C129: which crossings a closed contour goes through.  C130: one hill, one contour. *)
From Coq Require Import Reals Lra Lia Bool Psatz List ZifyBool.
From Verif Require Import M_Base M_Cntr M_Extract S_Cntr S_Lines S_Lines2 S_Border S_Cross S_Turn S_Enclose S_Hill P_Cntr P_Lines P_Lines2 P_Border P_Cross P_Turn L_Turn L_Loop L_Nest L_Hill P_Enclose P_Nest.
From Verif Require L_Cntr2 L_Cntr10.
Import ListNotations.
Open Scope Z_scope.

(** *** Curves of the mesh *)
Section Mesh.
Variables cols rows : Z.
Variable above : Z -> bool.
Hypothesis C1 : 1 <= cols.
Hypothesis R1 : 1 <= rows.
Variable t : Z * Z -> bool.
Notation is_t := (fun k b => t k = b).
Notation linked := (connected cols rows above is_t).
Lemma through_end c h p q : is_curve cols rows above c -> goes_through c p q -> above p = h -> exists e, In e c /\ this_end above h e = p.
Proof.
  intros Ic [H|H] A; [exists (p, q)|exists (q, p)]; (split; [exact H|]); apply (this_end_of cols rows above c Ic h _ p q H); try assumption; [left|right]; reflexivity.
Qed.
Lemma same_contour c : good cols rows above t c -> forall p q p' q', goes_through c p q -> above p = true -> above q = false -> side cols rows (p', q') -> above p' = true -> above q' = false ->
  (goes_through c p' q' <-> linked p p' /\ linked q q').
Proof.
  intros [Ic Hl Cc Cu Un] p q p' q' G Ap Aq S Ap' Aq'. assert (Gs : forall a b, goes_through c a b -> goes_through c b a) by (intros a b [H|H]; [right|left]; exact H). split.
  - intro G'. split.
    + destruct (through_end c true p q Ic G Ap) as (e & He & <-). destruct (through_end c true p' q' Ic G' Ap') as (e' & He' & <-). apply (along_connected cols rows C1 above t c Ic Cu true e e' He He').
    + destruct (through_end c false q p Ic (Gs _ _ G) Aq) as (e & He & <-). destruct (through_end c false q' p' Ic (Gs _ _ G') Aq') as (e' & He' & <-). apply (along_connected cols rows C1 above t c Ic Cu false e e' He He').
  - intros [L1 L2]. pose proof (separated cols rows above C1 c Ic Hl Cc 1 (or_introl eq_refl) Un) as Sp.
    pose proof (connected_alike cols rows C1 above t c Ic Hl Cc Cu _ Sp p p' L1) as E1. pose proof (connected_alike cols rows C1 above t c Ic Hl Cc Cu _ Sp q q' L2) as E2.
    apply goes_through_iff. apply (Sp (p', q') S). cbn [fst snd]. rewrite <- E1, <- E2. apply (Sp (p, q)); [|apply goes_through_iff; exact G]. destruct G as [G|G]; [apply (cv_sides _ _ _ _ Ic _ G)|apply side_sym; apply (cv_sides _ _ _ _ Ic _ G)].
Qed.
(** One set of connected points above and one of points not above, with the border in one of them: one closed curve *)
Lemma single curves b : Forall (is_curve cols rows above) curves -> (forall e, side cols rows e -> crossed above e -> total_visits e curves = 1%nat) -> (forall c, In c curves -> closed_curve c -> good cols rows above t c) ->
  (exists p, in_mesh cols rows p /\ above p = b) -> (forall p, border_point cols rows p -> above p = negb b) ->
  (forall p q, in_mesh cols rows p -> in_mesh cols rows q -> above p = above q -> linked p q) ->
  exists c, curves = [c] /\ closed_curve c /\ good cols rows above t c /\ forall sx, sx = 1 \/ sx = -1 -> forall p, in_mesh cols rows p -> (inside_at cols c sx p = true <-> above p = b).
Proof.
  intros Fc Tv Gd (p0 & I0 & A0) Bd Cn. rewrite Forall_forall in Fc.
  assert (B0 : border_point cols rows 0) by (split; [unfold in_mesh; nia|left; unfold row_of; apply Z.div_0_l; lia]).
  assert (Cl : forall c, In c curves -> closed_curve c) by (intros c Hc; apply (inner_closed cols rows above c (Fc c Hc)); intros k k' K K'; rewrite (Bd k K), (Bd k' K'); reflexivity).
  assert (All : forall c, In c curves -> forall e, side cols rows e -> crossed above e -> exists g, In g c /\ same_side e g).
  { intros c Hc [p' q'] S Cr. pose proof (Fc c Hc) as Ic. pose proof (Gd c Hc (Cl c Hc)) as Gc. pose proof (cv_length _ _ _ _ Ic) as L. destruct c as [|[p q] l] eqn:Ec; [cbn in L; lia|]. rewrite <- Ec in *. assert (Ip : In (p, q) c) by (rewrite Ec; left; reflexivity).
    destruct (cv_sides _ _ _ _ Ic _ Ip) as [Sp Cp]. unfold crossed in Cr, Cp. cbn [fst snd] in Cr, Cp. apply goes_through_iff. pose proof (same_contour c Gc) as Sc. pose proof (side_sym cols rows p' q' S) as S'. destruct Sp as (Ipp & Ipq & _). destruct S as (Ip' & Iq' & Sx).
    assert (Gs : forall a b, goes_through c a b -> goes_through c b a) by (intros a0 b0 [H|H]; [right|left]; exact H).
    assert (G1 : goes_through c p q) by (left; exact Ip). pose proof (Gs _ _ G1) as G2.
    destruct (above p) eqn:A1, (above q) eqn:A2; try (exfalso; apply Cp; reflexivity); destruct (above p') eqn:A3, (above q') eqn:A4; try (exfalso; apply Cr; reflexivity).
    - apply (Sc p q p' q' G1 A1 A2); [split; [exact Ip'|split; [exact Iq'|exact Sx]]|exact A3|exact A4|]. split; apply Cn; congruence.
    - apply Gs. apply (Sc p q q' p' G1 A1 A2); [exact S'|exact A4|exact A3|]. split; apply Cn; congruence.
    - apply (Sc q p p' q' G2 A2 A1); [split; [exact Ip'|split; [exact Iq'|exact Sx]]|exact A3|exact A4|]. split; apply Cn; congruence.
    - apply Gs. apply (Sc q p q' p' G2 A2 A1); [exact S'|exact A4|exact A3|]. split; apply Cn; congruence. }
  destruct curves as [|c rest].
  - exfalso. assert (E : above p0 = above 0); [|rewrite A0, (Bd 0 B0) in E; destruct b; discriminate E]. apply (all_or_none cols rows C1 above); [|exact I0|apply B0]. intros p q S.
    destruct (bool_dec (above p) (above q)) as [E|N]; [exact E|]. exfalso. pose proof (Tv (p, q) S N) as V. discriminate V.
  - exists c. pose proof (Gd c (or_introl eq_refl) (Cl c (or_introl eq_refl))) as Gc. split; [|split; [apply Cl; left; reflexivity|split; [exact Gc|]]].
    + destruct rest as [|c' rest]; [reflexivity|]. exfalso. pose proof (Fc c' (or_intror (or_introl eq_refl))) as Ic'. pose proof (cv_length _ _ _ _ Ic') as L. destruct c' as [|g' l'] eqn:Ec; [cbn in L; lia|]. rewrite <- Ec in *.
      assert (Ig : In g' c') by (rewrite Ec; left; reflexivity). destruct (cv_sides _ _ _ _ Ic' g' Ig) as [Sg Cg]. destruct (All c (or_introl eq_refl) g' Sg Cg) as (g & Hg & Hs).
      pose proof (visited _ _ _ c' Ic' (Cl c' (or_intror (or_introl eq_refl))) g' Ig) as V1. destruct Gc as [Ic Hl Cc Cu Un]. pose proof (visited _ _ _ c Ic Cc g Hg) as V2.
      assert (V3 : visits g' c = visits g c). { unfold visits. f_equal. apply filter_ext. intro k. apply eq_true_iff_eq. rewrite !same_sideb_iff. split; intro K; [exact (same_trans _ _ _ (same_sym _ _ Hs) K)|exact (same_trans _ _ _ Hs K)]. }
      pose proof (Tv g' Sg Cg) as V. unfold total_visits in V. cbn [fold_right] in V. lia.
    + intros sx SX. destruct Gc as [Ic Hl Cc Cu Un]. pose proof (separated cols rows above C1 c Ic Hl Cc sx SX Un) as Sp. pose proof (connected_alike cols rows C1 above t c Ic Hl Cc Cu _ Sp) as Al.
      assert (O0 : inside_at cols c sx 0 = false) by (apply (border_outside cols rows above C1 c Ic Hl Cc sx SX); apply B0).
      assert (Out : forall p, in_mesh cols rows p -> above p = negb b -> inside_at cols c sx p = false) by (intros p Ip Ap; rewrite (Al p 0); [exact O0|]; apply Cn; [exact Ip|apply B0|rewrite (Bd 0 B0); exact Ap]).
      destruct (closed_form cols rows above c Ic Cc) as ([a a'] & m0 & E0). assert (Ie : In (a, a') c) by (rewrite E0; left; reflexivity). clear E0 m0. pose proof (apart cols rows above C1 c Ic Hl Cc sx SX Un _ Ie) as X. cbn [fst snd] in X.
      destruct (cv_sides _ _ _ _ Ic _ Ie) as [(Ia & Ia' & _) Cr]. unfold crossed in Cr. cbn [fst snd] in Cr.
      assert (Inn : exists a, in_mesh cols rows a /\ above a = b /\ inside_at cols c sx a = true).
      { destruct (bool_dec (above a) b) as [E|N].
        - exists a. split; [exact Ia|]. split; [exact E|]. rewrite X, (Out a' Ia'); [reflexivity|]. destruct (above a), (above a'), b; cbn; congruence.
        - exists a'. assert (E : above a' = b) by (destruct (above a), (above a'), b; congruence). split; [exact Ia'|]. split; [exact E|]. rewrite (Out a Ia) in X; [|destruct (above a), b; cbn; congruence]. destruct (inside_at cols c sx a'); [reflexivity|discriminate X]. }
      destruct Inn as (i & Ii & Ai & Hi). intros p Ip. split; intro H.
      * destruct (bool_dec (above p) b) as [E|N]; [exact E|]. rewrite (Out p Ip) in H; [discriminate H|]. destruct (above p), b; cbn; congruence.
      * rewrite (Al p i); [exact Hi|]. apply Cn; [exact Ip|exact Ii|congruence].
Qed.
End Mesh.

(** *** Any arithmetic *)
Section Any.
Variable num : Type.
Variables add sub mul div : num -> num -> num.
Variable four : num.
Variables gtb eqn : num -> num -> bool.
Notation extract := (extract_contours num add sub mul div four gtb eqn).
Notation above := (above_of num gtb).
Lemma good_visits fuel mem x y z level : meshed x y z -> enough z fuel ->
  exists t curves codes, extract fuel mem x y z level = Ok (drawn num add sub mul div x y z level curves, codes) /\ Forall (is_curve (m_cols num z) (m_rows num z) (above z level)) curves /\
  (forall q, exists d, t q = L_Cntr10.mean_of (m_cols num z) (centre_of num add div four gtb z level) d (L_Cntr2.flat (m_cols num z) (fst q + 1, snd q + 1))) /\
  (forall c, In c curves -> closed_curve c -> good (m_cols num z) (m_rows num z) (above z level) t c) /\
  (2 <= m_cols num z -> 2 <= m_rows num z -> forall e, side (m_cols num z) (m_rows num z) e -> crossed (above z level) e -> total_visits e curves = 1%nat).
Proof.
  intros M F. destruct (master num add sub mul div four gtb eqn fuel mem x y z level M F) as (T & curves & cd & E & _ & Et & HT & Fc & Tv & Cu). exists (fun c => T (fst c + 1, snd c + 1)), curves. eexists. split; [exact E|]. split; [exact Fc|]. split; [intro q; apply HT|].
  destruct M as (_ & _ & _ & _ & M1 & M2). rewrite Forall_forall in Fc, Cu. split; [|exact Tv]. intros c Hc Cc. pose proof (Fc c Hc) as Ic.
  assert (D : 2 <= m_cols num z /\ 2 <= m_rows num z).
  { pose proof (cv_length _ _ _ _ Ic) as L. destruct c as [|a [|b l]]; [cbn in L; lia|cbn in L; lia|]. destruct (cv_steps _ _ _ _ Ic a b) as [_ (q & ([A B] & _) & _)]; [exists [], l; reflexivity|]. lia. }
  constructor; [exact Ic|exact (proj1 (trace_sides _ _ _ _ fuel mem curves M2 M1 F Et c Hc) Cc)|exact Cc|exact (Cu c Hc)|]. intros e He.
  destruct (cv_sides _ _ _ _ Ic e He) as [Se Ce]. rewrite (passes_visits _ (m_rows num z) (above z level) M2 c Ic Cc e Se). pose proof (visited _ _ _ c Ic Cc e He) as V1. pose proof (total_ge e c curves Hc) as V2.
  rewrite (Tv (proj1 D) (proj2 D) e Se Ce) in V2. lia.
Qed.
(** C129, any arithmetic: if a closed contour goes between p (above) and q (not above), it goes between p' and q' as well whenever these are joined to p and q over neighbouring points on their side of the level. *)
Theorem C129_joined_crossings_on_the_mesh fuel mem x y z level : meshed x y z -> enough z fuel ->
  exists curves codes, extract fuel mem x y z level = Ok (drawn num add sub mul div x y z level curves, codes) /\
  forall c p q p' q', In c curves -> closed_curve c -> goes_through c p q -> gtb (m_at num z p) level = true -> gtb (m_at num z q) level = false ->
    side (m_cols num z) (m_rows num z) (p', q') -> connected (m_cols num z) (m_rows num z) (fun k => gtb (m_at num z k) level) beside_only p p' -> connected (m_cols num z) (m_rows num z) (fun k => gtb (m_at num z k) level) beside_only q q' -> goes_through c p' q'.
Proof.
  intros M F. destruct (good_visits fuel mem x y z level M F) as (t & curves & codes & E & Fc & _ & Gd & _). exists curves, codes. split; [exact E|]. intros c p q p' q' Hc Cc G Ap Aq S L1 L2. assert (M2 : 1 <= m_cols num z) by apply M.
  apply (same_contour _ _ _ M2 t c (Gd c Hc Cc) p q p' q' G Ap Aq S); [exact (eq_trans (eq_sym (connected_above _ _ _ _ _ _ L1)) Ap)|exact (eq_trans (eq_sym (connected_above _ _ _ _ _ _ L2)) Aq)|].
  split; (eapply connected_weaker; [|eassumption]); intros k b [].
Qed.
(** C130, any arithmetic: the border is on one side of the level, some point is on the other side, and the points of each side are joined over neighbouring points.  Then there is exactly one
    contour; it is closed and encloses the points that are not on the side of the border. *)
Theorem C130_one_hill_one_contour_on_the_mesh fuel mem x y z level side_of_hill : meshed x y z -> 2 <= m_cols num z -> 2 <= m_rows num z -> enough z fuel ->
  (exists p, in_mesh (m_cols num z) (m_rows num z) p /\ gtb (m_at num z p) level = side_of_hill) -> (forall p, border_point (m_cols num z) (m_rows num z) p -> gtb (m_at num z p) level = negb side_of_hill) ->
  (forall p q, in_mesh (m_cols num z) (m_rows num z) p -> in_mesh (m_cols num z) (m_rows num z) q -> gtb (m_at num z p) level = gtb (m_at num z q) level -> connected (m_cols num z) (m_rows num z) (fun k => gtb (m_at num z k) level) beside_only p q) ->
  exists curve codes, extract fuel mem x y z level = Ok (drawn num add sub mul div x y z level [curve], codes) /\ closed_curve curve /\
  forall p, in_mesh (m_cols num z) (m_rows num z) p -> (encloses (m_cols num z) curve p <-> gtb (m_at num z p) level = side_of_hill).
Proof.
  intros M C2 R2 F Ex Bd Cn. destruct (good_visits fuel mem x y z level M F) as (t & curves & codes & E & Fc & _ & Gd & Tv). assert (M2 : 1 <= m_cols num z) by apply M. assert (M1 : 1 <= m_rows num z) by apply M.
  destruct (single (m_cols num z) (m_rows num z) (above z level) M2 M1 t curves side_of_hill Fc (Tv C2 R2) Gd Ex Bd) as (c & -> & Cc & Gc & In_c).
  - intros p q Ip Iq A. refine (connected_weaker _ _ _ _ _ p q _ (Cn p q Ip Iq A)). intros k b [].
  - exists c, codes. split; [exact E|]. split; [exact Cc|]. intros p Ip. rewrite (encloses_inside _ _ _ M2 c (g_curve _ _ _ _ _ Gc) Cc p Ip). apply (In_c 1 (or_introl eq_refl) p Ip).
Qed.
End Any.
Print Assumptions C129_joined_crossings_on_the_mesh.
Print Assumptions C130_one_hill_one_contour_on_the_mesh.

(** *** In the plane *)
Open Scope R_scope.
Lemma mean_good z level t c : (forall q, exists d, t q = L_Cntr10.mean_of (m_cols R z) (centre_of R Rplus Rdiv 4 Rgtb z level) d (L_Cntr2.flat (m_cols R z) (fst q + 1, snd q + 1)%Z)) ->
  good (m_cols R z) (m_rows R z) (above_of R Rgtb z level) t c -> good (m_cols R z) (m_rows R z) (above_of R Rgtb z level) (fun q => is_higher (mean_value z q) level) c.
Proof.
  intros HT [Ic Hl Cc Cu Un]. constructor; auto. intros e f q H1 H2 H3 H4. destruct (Cu e f q H1 H2 H3 H4) as (p & P1 & P2 & P3). exists p. split; [exact P1|]. split; [exact P2|]. rewrite P3. f_equal.
  destruct (HT q) as [d ->]. clear. unfold mean_value, L_Cntr10.mean_of, centre_of, corner, L_Cntr2.flat. cbn [fst snd]. set (w := m_cols R z).
  replace (fst q + 0 + (snd q + 0) * w)%Z with (fst q + 1 + (snd q + 1) * w - w - 1)%Z by ring. replace (fst q + 1 + (snd q + 0) * w)%Z with (fst q + 1 + (snd q + 1) * w - w)%Z by ring. replace (fst q + 0 + (snd q + 1) * w)%Z with (fst q + 1 + (snd q + 1) * w - 1)%Z by ring.
  change is_higher with Rgtb. destruct d; f_equal; field.
Qed.
(** A closed outline was drawn for a closed curve *)
Lemma outline_closed x y z level c : (1 <= m_cols R z)%Z -> with_axes x y z -> misses_the_level z level -> is_curve (m_cols R z) (m_rows R z) (above_of R Rgtb z level) c -> closed_outline (map (vertex R Rplus Rminus Rmult Rdiv x y z level) c) -> closed_curve c.
Proof.
  intros C1 (xs & ys & MX & MY & AX) Ms Ic Cl. destruct (cv_ends _ _ _ _ Ic) as [Cc|(e & f & (m1 & B1) & (m2 & B2) & _ & _ & NS)]; [exact Cc|]. exfalso. apply NS.
  assert (Ie : In e c) by (rewrite B1; left; reflexivity). assert (If : In f c) by (rewrite B2; apply in_or_app; right; left; reflexivity).
  destruct (cv_sides _ _ _ _ Ic e Ie) as [Se Ce]. destruct (cv_sides _ _ _ _ Ic f If) as [Sf Cf]. apply (points_apart x y z xs ys C1 MX MY AX level Ms); try assumption.
  destruct Cl as (w & k1 & k2 & E1 & E2 & _). rewrite B1 in E1. cbn [map] in E1. injection E1 as E1 _. rewrite B2, map_app in E2. cbn [map] in E2. apply app_inj_tail in E2 as [_ E2]. congruence.
Qed.
(** C129: a closed contour that goes between p (higher than the level) and q (lower) goes between p' (higher) and q' (lower) exactly if p and p' are connected above the level and q and q' are
    connected below it. *)
Theorem C129_crossings_of_a_closed_contour : forall fuel mem x y z level segments codes, meshed x y z -> with_axes x y z -> misses_the_level z level -> enough z fuel ->
  extractR fuel mem x y z level = Ok (segments, codes) -> forall vs p q p' q', In (Verts R vs) segments -> closed_outline vs ->
  side (m_cols R z) (m_rows R z) (p, q) -> side (m_cols R z) (m_rows R z) (p', q') -> m_at R z q < level < m_at R z p -> m_at R z q' < level < m_at R z p' -> vertex_on x y vs p q ->
  (vertex_on x y vs p' q' <-> joined_on_one_side z level p p' /\ joined_on_one_side z level q q').
Proof.
  intros fuel mem x y z level segments codes M A Ms F E vs p q p' q' H Cl S S' [H1 H2] [H3 H4] V. assert (C1 : (1 <= m_cols R z)%Z) by apply M.
  destruct (good_visits R Rplus Rminus Rmult Rdiv 4 Rgtb Reqb fuel mem x y z level M F) as (t & curves & cd & E' & Fc & HT & Gd & _). unfold extractR in E. rewrite E' in E. injection E as <- _.
  unfold drawn in H. apply in_map_iff in H as (c & Ec & Hc). injection Ec as <-. rewrite Forall_forall in Fc. pose proof (Fc c Hc) as Ic. pose proof (outline_closed x y z level c C1 A Ms Ic Cl) as Cc.
  pose proof (mean_good z level t c HT (Gd c Hc Cc)) as G. destruct A as (xs & ys & MX & MY & AX). pose proof (vertex_between x y z xs ys C1 MX MY AX level Ms c Ic) as Vb.
  unfold vertex_on in *. rewrite <- (Vb p' q' S'), <- goes_through_iff. apply (Vb p q S) in V. apply goes_through_iff in V.
  apply (same_contour (m_cols R z) (m_rows R z) (above_of R Rgtb z level) C1 _ c G p q p' q' V); unfold above_of; first [apply Rgtb_true; lra|apply Rgtb_false; lra|exact S'].
Qed.
Print Assumptions C129_crossings_of_a_closed_contour.
(** C130: the points of the border are all on one side of the level, some point is on the other side, and the points of each side are connected.  Then there is exactly one contour; it is closed, and
    the points inside it are those that are not on the side of the border. *)
Theorem C130_one_hill_one_contour : forall fuel mem x y z level hill segments codes, meshed x y z -> (2 <= m_cols R z)%Z -> (2 <= m_rows R z)%Z -> with_axes x y z -> misses_the_level z level -> enough z fuel ->
  (exists p, in_mesh (m_cols R z) (m_rows R z) p /\ is_higher (m_at R z p) level = hill) -> (forall p, border_point (m_cols R z) (m_rows R z) p -> is_higher (m_at R z p) level = negb hill) ->
  (forall p q, in_mesh (m_cols R z) (m_rows R z) p -> in_mesh (m_cols R z) (m_rows R z) q -> is_higher (m_at R z p) level = is_higher (m_at R z q) level -> joined_on_one_side z level p q) ->
  extractR fuel mem x y z level = Ok (segments, codes) ->
  exists vs, segments = [Verts R vs] /\ closed_outline vs /\ forall p, in_mesh (m_cols R z) (m_rows R z) p -> (inside_of vs (node x y p) <-> is_higher (m_at R z p) level = hill).
Proof.
  intros fuel mem x y z level hill segments codes M C2 R2 A Ms F Ex Bd Cn E. assert (C1 : (1 <= m_cols R z)%Z) by apply M. assert (R1 : (1 <= m_rows R z)%Z) by apply M.
  destruct (good_visits R Rplus Rminus Rmult Rdiv 4 Rgtb Reqb fuel mem x y z level M F) as (t & curves & cd & E' & Fc & HT & Gd & Tv). unfold extractR in E. rewrite E' in E. injection E as <- _.
  destruct (single (m_cols R z) (m_rows R z) (above_of R Rgtb z level) C1 R1 _ curves hill Fc (Tv C2 R2) (fun c H1 H2 => mean_good z level t c HT (Gd c H1 H2)) Ex Bd Cn) as (c & -> & Cc & Gc & In_c).
  exists (map (vertex R Rplus Rminus Rmult Rdiv x y z level) c). destruct Gc as [Ic Hl _ _ _]. split; [reflexivity|]. split; [apply closed_map; [apply (cv_length _ _ _ _ Ic)|exact Cc]|].
  destruct A as (xs & ys & MX & MY & AX). destruct (axis_sign _ _ MX) as (sx & SX & RX). destruct (axis_sign _ _ MY) as (sy & SY & RY). intros p Ip.
  rewrite (inside_plane x y z xs ys C1 AX level Ms c Ic Hl Cc sx sy SX SY RX RY p Ip). exact (In_c sx SX p Ip).
Qed.
Print Assumptions C130_one_hill_one_contour.

(** *** The hypotheses are met *)
Lemma peak_points p q : in_mesh 3 3 p -> in_mesh 3 3 q -> (p =? 4)%Z = (q =? 4)%Z -> forall kn, connected 3 3 (fun k => (k =? 4)%Z) kn p q.
Proof. intros Ip Iq A kn. apply (grown 3 3 (fun k => (k =? 4)%Z) kn (fun b => if b then 4 else 0)%Z 10); try assumption; vm_compute; reflexivity. Qed.
(** The summit of C125_case: the contour goes between the summit and its neighbours 1 and 5, which are connected around it *)
Example C129_case : meshed peakX peakY peakZ /\ with_axes peakX peakY peakZ /\ misses_the_level peakZ (1 / 2) /\ enough peakZ 60 /\
  exists s c vs, extractR 60 (fun _ => blank) peakX peakY peakZ (1 / 2) = Ok (s, c) /\ In (Verts R vs) s /\ closed_outline vs /\ side 3 3 (4, 1)%Z /\ side 3 3 (4, 5)%Z /\
    m_at R peakZ 1 < 1 / 2 < m_at R peakZ 4 /\ m_at R peakZ 5 < 1 / 2 < m_at R peakZ 4 /\ vertex_on peakX peakY vs 4 1 /\ joined_on_one_side peakZ (1 / 2) 1 5.
Proof.
  assert (M : meshed peakX peakY peakZ) by (unfold meshed; cbn; lia). assert (F : enough peakZ 60) by (unfold enough; cbn; lia). assert (Ms : misses_the_level peakZ (1 / 2)) by (intros k _; cbn; destruct (k =? 4)%Z; lra).
  split; [exact M|]. split; [exact peak_axes|]. split; [exact Ms|]. split; [exact F|]. destruct peak_curves as (s & c & E & ->). eexists. exists c. eexists. split; [exact E|]. split; [left; reflexivity|].
  split; [apply closed_map; [cbn; lia|]; exists (4, 1)%Z; split; [eexists; reflexivity|exists [(4, 1); (4, 5); (4, 7); (4, 3)]%Z; reflexivity]|].
  split; [unfold side, in_mesh, row_of, col_of; cbn; lia|]. split; [unfold side, in_mesh, row_of, col_of; cbn; lia|]. split; [cbn; lra|]. split; [cbn; lra|]. split.
  - eexists. exists (1 / 2). split; [left; reflexivity|]. split; [lra|]. unfold between, vertex. cbn. apply f_equal2; field.
  - unfold joined_on_one_side. change (fun k => is_higher (m_at R peakZ k) (1 / 2)) with (above_of R Rgtb peakZ (1 / 2)). rewrite peak_above. apply peak_points; [unfold in_mesh; lia|unfold in_mesh; lia|reflexivity].
Qed.
Example C130_case : meshed peakX peakY peakZ /\ (2 <= m_cols R peakZ)%Z /\ (2 <= m_rows R peakZ)%Z /\ with_axes peakX peakY peakZ /\ misses_the_level peakZ (1 / 2) /\ enough peakZ 60 /\
  (exists p, in_mesh 3 3 p /\ is_higher (m_at R peakZ p) (1 / 2) = true) /\ (forall p, border_point 3 3 p -> is_higher (m_at R peakZ p) (1 / 2) = negb true) /\
  (forall p q, in_mesh 3 3 p -> in_mesh 3 3 q -> is_higher (m_at R peakZ p) (1 / 2) = is_higher (m_at R peakZ q) (1 / 2) -> joined_on_one_side peakZ (1 / 2) p q) /\
  exists s c, extractR 60 (fun _ => blank) peakX peakY peakZ (1 / 2) = Ok (s, c).
Proof.
  assert (H : forall k, is_higher (m_at R peakZ k) (1 / 2) = (k =? 4)%Z) by (intro k; exact (f_equal (fun f => f k) peak_above)).
  split; [unfold meshed; cbn; lia|]. split; [cbn; lia|]. split; [cbn; lia|]. split; [exact peak_axes|]. split; [intros k _; cbn; destruct (k =? 4)%Z; lra|]. split; [unfold enough; cbn; lia|]. split; [exists 4%Z; rewrite H; split; [unfold in_mesh; lia|reflexivity]|]. split; [|split].
  - intros p ((P1 & P2) & B). rewrite H. destruct (Z.eqb_spec p 4) as [-> |N]; [|reflexivity]. exfalso. unfold row_of, col_of in B. cbn in B. lia.
  - intros p q Ip Iq A. rewrite !H in A. unfold joined_on_one_side. change (fun k => is_higher (m_at R peakZ k) (1 / 2)) with (above_of R Rgtb peakZ (1 / 2)). rewrite peak_above. apply peak_points; assumption.
  - destruct peak_curves as (s & c & E & _). exists s, c. exact E.
Qed.
(** On the mesh: a hill of three points on 5 x 5 points *)
Definition bentZ : mat Z := mkMat Z 5 5 (fun k => if existsb (Z.eqb k) [6; 7; 12] then 4 else 0)%Z.
Example C130_mesh_case : meshed ringX ringY bentZ /\ (2 <= m_cols Z bentZ)%Z /\ (2 <= m_rows Z bentZ)%Z /\ enough bentZ 200 /\
  (exists p, in_mesh 5 5 p /\ Z.gtb (m_at Z bentZ p) 1 = true) /\ (forall p, border_point 5 5 p -> Z.gtb (m_at Z bentZ p) 1 = negb true) /\
  (forall p q, in_mesh 5 5 p -> in_mesh 5 5 q -> Z.gtb (m_at Z bentZ p) 1 = Z.gtb (m_at Z bentZ q) 1 -> connected 5 5 (fun k => Z.gtb (m_at Z bentZ k) 1) beside_only p q).
Proof.
  split; [unfold meshed; cbn; lia|]. split; [cbn; lia|]. split; [cbn; lia|]. split; [unfold enough; cbn; lia|]. split; [exists 6%Z; split; [unfold in_mesh; lia|reflexivity]|]. split.
  - intros p ((P1 & P2) & B). assert (N : (p <> 6 /\ p <> 7 /\ p <> 12)%Z) by (repeat split; intros ->; unfold row_of, col_of in B; cbn in B; lia).
    unfold bentZ. cbn [m_at existsb]. destruct (Z.eqb_spec p 6); [tauto|]. destruct (Z.eqb_spec p 7); [tauto|]. destruct (Z.eqb_spec p 12); [tauto|]. reflexivity.
  - apply (grown 5 5 (fun k => Z.gtb (m_at Z bentZ k) 1) beside_only (fun b => if b then 6 else 0)%Z 20); vm_compute; reflexivity.
Qed.

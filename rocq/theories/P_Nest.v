(** C127: closed contours are nested or apart.  C128: how many closed contours a level can have. *)
From Coq Require Import Reals Lra Lia Bool Psatz List ZifyBool.
From Verif Require Import M_Base M_Cntr M_Extract S_Cntr S_Lines S_Lines2 S_Border S_Cross S_Turn S_Enclose P_Cntr P_Lines P_Lines2 P_Border P_Cross P_Turn L_Turn L_Loop L_Nest P_Enclose.
From Verif Require L_Cntr2 L_Cntr10.
Import ListNotations.
Open Scope Z_scope.

Lemma laminar_same cols rows above t c c' sx : 1 <= cols -> 1 <= rows -> is_curve cols rows above c -> higher_left cols above c -> closed_curve c -> cuts_off cols rows above t c -> (forall e, In e c -> passes cols c (middle cols e) = 1) ->
  is_curve cols rows above c' -> higher_left cols above c' -> closed_curve c' -> cuts_off cols rows above t c' -> (forall e, In e c' -> passes cols c' (middle cols e) = 1) -> sx = 1 \/ sx = -1 ->
  (forall p, in_mesh cols rows p -> inside_at cols c sx p = true -> inside_at cols c' sx p = true) \/ (forall p, in_mesh cols rows p -> inside_at cols c' sx p = true -> inside_at cols c sx p = true) \/
  (forall p, in_mesh cols rows p -> inside_at cols c sx p = true -> inside_at cols c' sx p = true -> False).
Proof. intros. apply (laminar cols rows) with (above := above) (above' := above) (t := t) (t' := t); auto. Qed.

(** A point inside the curve, next to it *)
Section Witness.
Variables cols rows : Z.
Variable above : Z -> bool.
Hypothesis C1 : 1 <= cols.
Hypothesis R1 : 1 <= rows.
Variable sx : Z.
Hypothesis SX : sx = 1 \/ sx = -1.
Variable t : Z * Z -> bool.
Record good (c : list (Z * Z)) : Prop := { g_curve : is_curve cols rows above c; g_left : higher_left cols above c; g_closed : closed_curve c; g_cuts : cuts_off cols rows above t c; g_once : forall e, In e c -> passes cols c (middle cols e) = 1 }.
Lemma inner_point c : good c -> exists p q, side cols rows (p, q) /\ (exists e, In e c /\ same_side (p, q) e) /\ inside_at cols c sx p = true /\ inside_at cols c sx q = false.
Proof.
  intros [Ic Hl Cc Cu Un]. destruct (closed_form cols rows above c Ic Cc) as ([a b] & m0 & E0). assert (I0 : In (a, b) c) by (rewrite E0; left; reflexivity). clear E0 m0.
  pose proof (apart cols rows above C1 c Ic Hl Cc sx SX Un _ I0) as A. cbn [fst snd] in A. destruct (cv_sides _ _ _ _ Ic _ I0) as [S _]. assert (S' : side cols rows (b, a)) by (destruct S as (X & Y & Z); apply mk_side; auto; lia).
  destruct (inside_at cols c sx b) eqn:B; [exists b, a|exists a, b]; (split; [assumption|]); (split; [exists (a, b); split; [exact I0|]; first [left; reflexivity|right; reflexivity]|]); auto.
Qed.
Lemma inner_apart c c' p q q' : good c -> good c' -> (forall e, (exists g, In g c /\ same_side e g) -> (exists g, In g c' /\ same_side e g) -> False) ->
  side cols rows (p, q) -> side cols rows (p, q') -> inside_at cols c sx p = true -> inside_at cols c sx q = false -> inside_at cols c' sx p = true -> inside_at cols c' sx q' = false -> False.
Proof.
  intros [Ic Hl Cc Cu Un] [Ic' Hl' Cc' Cu' Un'] Ds S S' A B A' B'.
  pose proof (separated cols rows above C1 c Ic Hl Cc sx SX Un) as Sp. pose proof (separated cols rows above C1 c' Ic' Hl' Cc' sx SX Un') as Sp'.
  assert (Ip : in_mesh cols rows p) by apply S. assert (Iq : in_mesh cols rows q) by apply S. assert (Iq' : in_mesh cols rows q') by apply S'.
  destruct (laminar_same cols rows above t c c' sx C1 R1 Ic Hl Cc Cu Un Ic' Hl' Cc' Cu' Un' SX) as [L|[L|L]].
  - assert (X : inside_at cols c sx q' = false) by (destruct (inside_at cols c sx q') eqn:E; [rewrite (L q' Iq' E) in B'; discriminate B'|reflexivity]).
    apply (Ds (p, q')); [apply Sp; [exact S'|]|apply Sp'; [exact S'|]]; cbn [fst snd]; [rewrite A, X|rewrite A', B']; reflexivity.
  - assert (X : inside_at cols c' sx q = false) by (destruct (inside_at cols c' sx q) eqn:E; [rewrite (L q Iq E) in B; discriminate B|reflexivity]).
    apply (Ds (p, q)); [apply Sp; [exact S|]|apply Sp'; [exact S|]]; cbn [fst snd]; [rewrite A, B|rewrite A', X]; reflexivity.
  - exact (L p Ip A A').
Qed.
(** Points that are not on the border *)
Definition inner_points : list Z := flat_map (fun r => map (fun i => Z.of_nat i + Z.of_nat r * cols) (seq 1 (Z.to_nat (cols - 2)))) (seq 1 (Z.to_nat (rows - 2))).
Lemma inner_count : Z.of_nat (length inner_points) = Z.max 0 (cols - 2) * Z.max 0 (rows - 2).
Proof.
  clear above C1 R1 sx SX t. unfold inner_points. assert (H : forall l : list nat, Z.of_nat (length (flat_map (fun r => map (fun i => Z.of_nat i + Z.of_nat r * cols) (seq 1 (Z.to_nat (cols - 2)))) l)) = Z.max 0 (cols - 2) * Z.of_nat (length l)).
  { induction l as [|a l IH]; [cbn; lia|]. cbn [flat_map]. rewrite app_length, Nat2Z.inj_add, IH, map_length, seq_length. cbn [length]. lia. }
  rewrite H, seq_length. lia.
Qed.
Lemma inner_in p : in_mesh cols rows p -> ~ (row_of cols p = 0 \/ row_of cols p = rows - 1 \/ col_of cols p = 0 \/ col_of cols p = cols - 1) -> In p inner_points.
Proof.
  intros Ip N. destruct (coords cols rows p C1 Ip) as (A & B & E). apply in_flat_map. exists (Z.to_nat (row_of cols p)). split; [apply in_seq; lia|]. apply in_map_iff. exists (Z.to_nat (col_of cols p)). split; [rewrite !Z2Nat.id by lia; symmetry; exact E|apply in_seq; lia].
Qed.
Lemma count l : NoDup (map fst l) -> (forall i c, In (i, c) l -> good c) -> (forall i c j c', In (i, c) l -> In (j, c') l -> i <> j -> forall e, (exists g, In g c /\ same_side e g) -> (exists g, In g c' /\ same_side e g) -> False) ->
  (length (l : list (nat * list (Z * Z))) <= length inner_points)%nat.
Proof.
  intros Nd Gd Ds. assert (W : exists ps, length ps = length l /\ NoDup ps /\ (forall p, In p ps -> exists i c q, In (i, c) l /\ side cols rows (p, q) /\ inside_at cols c sx p = true /\ inside_at cols c sx q = false)).
  { induction l as [|[i c] l IH]; [exists []; split; [reflexivity|]; split; [constructor|intros p []]|].
    destruct IH as (ps & Lp & Np & Hp).
    - inversion Nd; assumption.
    - intros; eapply Gd; right; eassumption.
    - intros i1 c1 j1 c1' H1 H2 N e G1 G2. exact (Ds i1 c1 j1 c1' (or_intror H1) (or_intror H2) N e G1 G2).
    - destruct (inner_point c (Gd i c (or_introl eq_refl))) as (p & q & S & _ & A & B). exists (p :: ps). split; [cbn; f_equal; exact Lp|]. split.
      + constructor; [|exact Np]. intro Ip. destruct (Hp p Ip) as (j & c' & q' & Il & S' & A' & B').
        assert (Nij : i <> j) by (intros ->; inversion Nd as [|? ? X _]; apply X; apply in_map_iff; exists (j, c'); auto).
        apply (inner_apart c c' p q q'); auto; [apply (Gd i); left; reflexivity|apply (Gd j); right; exact Il|]. exact (Ds i c j c' (or_introl eq_refl) (or_intror Il) Nij).
      + intros p' [<-|Ip']; [exists i, c, q; split; [left; reflexivity|]; auto|]. destruct (Hp p' Ip') as (j & c' & q' & Il & R). exists j, c', q'. split; [right; exact Il|exact R]. }
  destruct W as (ps & <- & Np & Hp). apply NoDup_incl_length; [exact Np|]. intros p Ip. destruct (Hp p Ip) as (i & c & q & Il & S & A & _). apply inner_in; [apply S|]. intro Bd.
  destruct (Gd i c Il) as [Ic Hl Cc Cu Un]. rewrite (border_outside cols rows above C1 c Ic Hl Cc sx SX p (proj1 S) Bd) in A. discriminate A.
Qed.
End Witness.

(** *** On the mesh, for any arithmetic, in particular that of double with infinities and NaN *)
Section Any.
Variable num : Type.
Variables add sub mul div : num -> num -> num.
Variable four : num.
Variables gtb eqn : num -> num -> bool.
Notation extract := (extract_contours num add sub mul div four gtb eqn).
Notation above := (above_of num gtb).
Lemma two_visits e c c' i j (curves : list (list (Z * Z))) : nth_error curves i = Some c -> nth_error curves j = Some c' -> i <> j -> (visits e c + visits e c' <= total_visits e curves)%nat.
Proof.
  revert i j. induction curves as [|d l IH]; intros [|i] [|j] Hi Hj N; try discriminate; try congruence; cbn in Hi, Hj; cbn [total_visits fold_right]; fold (total_visits e l).
  - injection Hi as <-. pose proof (total_ge e c' l (nth_error_In _ _ Hj)). lia.
  - injection Hj as <-. pose proof (total_ge e c l (nth_error_In _ _ Hi)). lia.
  - pose proof (IH i j Hi Hj ltac:(congruence)). lia.
Qed.
Lemma good_curves fuel mem x y z level : meshed x y z -> enough z fuel ->
  exists t curves codes, extract fuel mem x y z level = Ok (drawn num add sub mul div x y z level curves, codes) /\ Forall (is_curve (m_cols num z) (m_rows num z) (above z level)) curves /\
  (forall q, exists d, t q = L_Cntr10.mean_of (m_cols num z) (centre_of num add div four gtb z level) d (L_Cntr2.flat (m_cols num z) (fst q + 1, snd q + 1))) /\
  (forall c, In c curves -> closed_curve c -> good (m_cols num z) (m_rows num z) (above z level) t c) /\
  forall i j c c', nth_error curves i = Some c -> nth_error curves j = Some c' -> i <> j -> closed_curve c -> closed_curve c' -> forall e, (exists g, In g c /\ same_side e g) -> (exists g, In g c' /\ same_side e g) -> False.
Proof.
  intros M F. destruct (master num add sub mul div four gtb eqn fuel mem x y z level M F) as (T & curves & cd & E & _ & Et & HT & Fc & Tv & Cu). exists (fun c => T (fst c + 1, snd c + 1)), curves. eexists. split; [exact E|]. split; [exact Fc|]. split; [intro q; apply HT|].
  destruct M as (_ & _ & _ & _ & M1 & M2). rewrite Forall_forall in Fc, Cu.
  assert (D : forall c, In c curves -> 2 <= m_cols num z /\ 2 <= m_rows num z).
  { intros c Hc. pose proof (Fc c Hc) as Ic. pose proof (cv_length _ _ _ _ Ic) as L. destruct c as [|a [|b l]]; [cbn in L; lia|cbn in L; lia|]. destruct (cv_steps _ _ _ _ Ic a b) as [_ (q & ([A B] & _) & _)]; [exists [], l; reflexivity|]. lia. }
  split.
  - intros c Hc Cc. pose proof (Fc c Hc) as Ic. constructor; [exact Ic|exact (proj1 (trace_sides _ _ _ _ fuel mem curves M2 M1 F Et c Hc) Cc)|exact Cc|exact (Cu c Hc)|]. intros e He.
    destruct (cv_sides _ _ _ _ Ic e He) as [Se Ce]. rewrite (passes_visits _ (m_rows num z) (above z level) M2 c Ic Cc e Se). pose proof (visited _ _ _ c Ic Cc e He) as V1. pose proof (total_ge e c curves Hc) as V2.
    rewrite (Tv (proj1 (D c Hc)) (proj2 (D c Hc)) e Se Ce) in V2. lia.
  - intros i j c c' Hi Hj N Cc Cc' e (g & Hg & G) (g' & Hg' & G'). pose proof (nth_error_In _ _ Hi) as Hc. pose proof (nth_error_In _ _ Hj) as Hc'. pose proof (Fc c Hc) as Ic. pose proof (Fc c' Hc') as Ic'.
    destruct (cv_sides _ _ _ _ Ic g Hg) as [Sg Cg]. pose proof (visited _ _ _ c Ic Cc g Hg) as V1.
    assert (V2 : (1 <= visits g c')%nat).
    { pose proof (visited _ _ _ c' Ic' Cc' g' Hg') as V. enough (visits g c' = visits g' c') by lia. unfold visits. f_equal. apply filter_ext. intro k. apply eq_true_iff_eq. rewrite !same_sideb_iff.
      pose proof (same_trans _ _ _ (same_sym _ _ G) G') as GG. split; intro K; [exact (same_trans _ _ _ (same_sym _ _ GG) K)|exact (same_trans _ _ _ GG K)]. }
    pose proof (two_visits g c c' i j curves Hi Hj N) as V3. rewrite (Tv (proj1 (D c Hc)) (proj2 (D c Hc)) g Sg Cg) in V3. lia.
Qed.
Theorem C127_closed_contours_are_nested_or_apart_on_the_mesh fuel mem x y z level : meshed x y z -> enough z fuel ->
  exists curves codes, extract fuel mem x y z level = Ok (drawn num add sub mul div x y z level curves, codes) /\
  forall c c', In c curves -> In c' curves -> closed_curve c -> closed_curve c' ->
    (forall p, in_mesh (m_cols num z) (m_rows num z) p -> encloses (m_cols num z) c p -> encloses (m_cols num z) c' p) \/
    (forall p, in_mesh (m_cols num z) (m_rows num z) p -> encloses (m_cols num z) c' p -> encloses (m_cols num z) c p) \/
    (forall p, in_mesh (m_cols num z) (m_rows num z) p -> ~ (encloses (m_cols num z) c p /\ encloses (m_cols num z) c' p)).
Proof.
  intros M F. destruct (good_curves fuel mem x y z level M F) as (t & curves & codes & E & Fc & _ & Gd & _). exists curves, codes. split; [exact E|]. intros c c' Hc Hc' Cc Cc'.
  destruct (Gd c Hc Cc) as [Ic Hl _ Cu Un]. destruct (Gd c' Hc' Cc') as [Ic' Hl' _ Cu' Un']. assert (M2 : 1 <= m_cols num z) by apply M. assert (M1 : 1 <= m_rows num z) by apply M.
  pose proof (encloses_inside _ _ _ M2 c Ic Cc) as En. pose proof (encloses_inside _ _ _ M2 c' Ic' Cc') as En'.
  destruct (laminar_same _ _ _ _ c c' 1 M2 M1 Ic Hl Cc Cu Un Ic' Hl' Cc' Cu' Un' (or_introl eq_refl)) as [L|[L|L]]; [left|right; left|right; right].
  - intros p Ip A. apply (En' p Ip). apply (L p Ip). apply (En p Ip). exact A.
  - intros p Ip A. apply (En p Ip). apply (L p Ip). apply (En' p Ip). exact A.
  - intros p Ip [A B]. apply (L p Ip); [apply (En p Ip)|apply (En' p Ip)]; assumption.
Qed.
Theorem C128_number_of_closed_contours_on_the_mesh fuel mem x y z level : meshed x y z -> enough z fuel ->
  exists curves codes, extract fuel mem x y z level = Ok (drawn num add sub mul div x y z level curves, codes) /\
  forall l, NoDup l -> (forall i, In i l -> exists c, nth_error curves i = Some c /\ closed_curve c) -> Z.of_nat (length l) <= Z.max 0 (m_cols num z - 2) * Z.max 0 (m_rows num z - 2).
Proof.
  intros M F. destruct (good_curves fuel mem x y z level M F) as (t & curves & codes & E & Fc & _ & Gd & Ds). exists curves, codes. split; [exact E|]. intros l Nd Hl. assert (M2 : 1 <= m_cols num z) by apply M. assert (M1 : 1 <= m_rows num z) by apply M.
  rewrite <- (inner_count (m_cols num z) (m_rows num z)). set (l2 := map (fun i => (i, nth i curves [])) l).
  assert (K : forall i c, In (i, c) l2 -> nth_error curves i = Some c /\ closed_curve c).
  { intros i c H. apply in_map_iff in H as (i' & Ei & Ii). pose proof (f_equal fst Ei) as E1. pose proof (f_equal snd Ei) as E2. cbn [fst snd] in E1, E2. subst i'. destruct (Hl i Ii) as (c0 & Hc0 & Cc0). rewrite (nth_error_nth _ _ [] Hc0) in E2. subst c0. auto. }
  pose proof (count (m_cols num z) (m_rows num z) (above z level) M2 M1 1 (or_introl eq_refl) t l2) as Co. assert (L2 : length l2 = length l) by apply map_length. rewrite <- L2. apply inj_le, Co.
  - unfold l2. rewrite map_map, map_id. exact Nd.
  - intros i c H. destruct (K i c H) as [A B]. apply Gd; [exact (nth_error_In _ _ A)|exact B].
  - intros i c j c' H H' N. destruct (K i c H) as [A B]. destruct (K j c' H') as [A' B']. exact (Ds i j c c' A A' N B B').
Qed.
End Any.
Print Assumptions C127_closed_contours_are_nested_or_apart_on_the_mesh.
Print Assumptions C128_number_of_closed_contours_on_the_mesh.

(** *** In the plane *)
Open Scope R_scope.
(** A closed outline was drawn for a closed curve, which cuts corners off as the mean of the cell says *)
Lemma outline_mean fuel mem x y z level segments codes : meshed x y z -> with_axes x y z -> misses_the_level z level -> enough z fuel -> extractR fuel mem x y z level = Ok (segments, codes) ->
  exists curves, segments = drawn R Rplus Rminus Rmult Rdiv x y z level curves /\
    (forall c, In c curves -> closed_outline (map (vertex R Rplus Rminus Rmult Rdiv x y z level) c) -> good (m_cols R z) (m_rows R z) (above_of R Rgtb z level) (mean_above z level) c) /\
    forall i j c c', nth_error curves i = Some c -> nth_error curves j = Some c' -> i <> j -> closed_curve c -> closed_curve c' -> forall e, (exists g, In g c /\ same_side e g) -> (exists g, In g c' /\ same_side e g) -> False.
Proof.
  intros M (xs & ys & MX & MY & AX) Ms F E. assert (C1 : (1 <= m_cols R z)%Z) by apply M. destruct (good_curves R Rplus Rminus Rmult Rdiv 4 Rgtb Reqb fuel mem x y z level M F) as (t & curves & cd & E' & Fc & HT & Gd & Ds).
  unfold extractR in E. rewrite E' in E. injection E as <- _. exists curves. split; [reflexivity|]. split; [|exact Ds]. intros c Ic0 Cl. rewrite Forall_forall in Fc. pose proof (Fc c Ic0) as Ic.
  assert (Cc : closed_curve c).
  { destruct (cv_ends _ _ _ _ Ic) as [Cc|(e & f & (m1 & B1) & (m2 & B2) & _ & _ & NS)]; [exact Cc|]. exfalso. apply NS.
    assert (Ie : In e c) by (rewrite B1; left; reflexivity). assert (If : In f c) by (rewrite B2; apply in_or_app; right; left; reflexivity).
    destruct (cv_sides _ _ _ _ Ic e Ie) as [Se Ce]. destruct (cv_sides _ _ _ _ Ic f If) as [Sf Cf]. apply (points_apart x y z xs ys C1 MX MY AX level Ms); try assumption.
    destruct Cl as (w & k1 & k2 & E1 & E2 & _). rewrite B1 in E1. cbn [map] in E1. injection E1 as E1 _. rewrite B2, map_app in E2. cbn [map] in E2. apply app_inj_tail in E2 as [_ E2]. congruence. }
  destruct (Gd c Ic0 Cc) as [_ Hl _ Cu Un]. constructor; auto. intros e f q H1 H2 H3 H4. destruct (Cu e f q H1 H2 H3 H4) as (p & P1 & P2 & P3). exists p. split; [exact P1|]. split; [exact P2|]. rewrite P3. f_equal.
  destruct (HT q) as [d ->]. clear. unfold mean_above, L_Cntr10.mean_of, centre_of, corner, L_Cntr2.flat. cbn [fst snd]. set (w := m_cols R z).
  replace (fst q + 0 + (snd q + 0) * w)%Z with (fst q + 1 + (snd q + 1) * w - w - 1)%Z by ring. replace (fst q + 1 + (snd q + 0) * w)%Z with (fst q + 1 + (snd q + 1) * w - w)%Z by ring. replace (fst q + 0 + (snd q + 1) * w)%Z with (fst q + 1 + (snd q + 1) * w - 1)%Z by ring.
  destruct d; f_equal; field.
Qed.
Lemma nested_upwards fuel mem mem' x y z level level' segments segments' codes codes' : meshed x y z -> with_axes x y z -> misses_the_level z level -> misses_the_level z level' -> enough z fuel -> level <= level' ->
  extractR fuel mem x y z level = Ok (segments, codes) -> extractR fuel mem' x y z level' = Ok (segments', codes') -> forall vs vs', In (Verts R vs) segments -> In (Verts R vs') segments' -> closed_outline vs -> closed_outline vs' ->
  (forall p, in_mesh (m_cols R z) (m_rows R z) p -> inside_of vs (node x y p) -> inside_of vs' (node x y p)) \/ (forall p, in_mesh (m_cols R z) (m_rows R z) p -> inside_of vs' (node x y p) -> inside_of vs (node x y p)) \/
  (forall p, in_mesh (m_cols R z) (m_rows R z) p -> ~ (inside_of vs (node x y p) /\ inside_of vs' (node x y p))).
Proof.
  intros M A Ms Ms' F L E E' vs vs' H H' Cl Cl'. destruct (outline_mean _ _ _ _ _ _ _ _ M A Ms F E) as (curves & -> & Gd & _). destruct (outline_mean _ _ _ _ _ _ _ _ M A Ms' F E') as (curves' & -> & Gd' & _).
  unfold drawn in H, H'. apply in_map_iff in H as (c & Ec & Hc). apply in_map_iff in H' as (c' & Ec' & Hc'). injection Ec as <-. injection Ec' as <-. destruct (Gd c Hc Cl) as [Ic Hl Cc Cu Un]. destruct (Gd' c' Hc' Cl') as [Ic' Hl' Cc' Cu' Un'].
  destruct A as (xs & ys & MX & MY & AX). assert (C1 : (1 <= m_cols R z)%Z) by apply M. assert (R1 : (1 <= m_rows R z)%Z) by apply M. destruct (axis_sign _ _ MX) as (sx & SX & RX). destruct (axis_sign _ _ MY) as (sy & SY & RY).
  pose proof (inside_plane x y z xs ys C1 AX level Ms c Ic Hl Cc sx sy SX SY RX RY) as Pl. pose proof (inside_plane x y z xs ys C1 AX level' Ms' c' Ic' Hl' Cc' sx sy SX SY RX RY) as Pl'.
  destruct (laminar (m_cols R z) (m_rows R z) C1 R1 (above_of R Rgtb z level) (above_of R Rgtb z level') (mean_above z level) (mean_above z level') c c' Ic Hl Cc Cu Un Ic' Hl' Cc' Cu' Un') with (sx := sx) as [N|[N|N]]; auto.
  - intros p _ K. unfold above_of in *. apply Rgtb_true in K. apply Rgtb_true. lra.
  - intros q _ K. unfold mean_above in *. apply Rgtb_true in K. apply Rgtb_true. lra.
  - left. intros p Ip K. apply (Pl' p Ip), (N p Ip), (Pl p Ip). exact K.
  - right. left. intros p Ip K. apply (Pl p Ip), (N p Ip), (Pl' p Ip). exact K.
  - right. right. intros p Ip [K K']. apply (N p Ip); [apply (Pl p Ip)|apply (Pl' p Ip)]; assumption.
Qed.
(** C127: of two closed contours, of one level or of two, one has every grid point inside that the other one has, or no grid point is inside both. *)
Theorem C127_closed_contours_are_nested_or_apart : forall fuel mem mem' x y z level level' segments segments' codes codes', meshed x y z -> with_axes x y z -> misses_the_level z level -> misses_the_level z level' -> enough z fuel ->
  extractR fuel mem x y z level = Ok (segments, codes) -> extractR fuel mem' x y z level' = Ok (segments', codes') -> forall vs vs', In (Verts R vs) segments -> In (Verts R vs') segments' -> closed_outline vs -> closed_outline vs' ->
  (forall p, in_mesh (m_cols R z) (m_rows R z) p -> inside_of vs (node x y p) -> inside_of vs' (node x y p)) \/ (forall p, in_mesh (m_cols R z) (m_rows R z) p -> inside_of vs' (node x y p) -> inside_of vs (node x y p)) \/
  (forall p, in_mesh (m_cols R z) (m_rows R z) p -> ~ (inside_of vs (node x y p) /\ inside_of vs' (node x y p))).
Proof.
  intros fuel mem mem' x y z level level' segments segments' codes codes' M A Ms Ms' F E E' vs vs' H H' Cl Cl'. destruct (Rle_lt_dec level level') as [L|L].
  - exact (nested_upwards _ _ _ _ _ _ _ _ _ _ _ _ M A Ms Ms' F L E E' vs vs' H H' Cl Cl').
  - destruct (nested_upwards _ _ _ _ _ _ _ _ _ _ _ _ M A Ms' Ms F (Rlt_le _ _ L) E' E vs' vs H' H Cl' Cl) as [N|[N|N]]; [right; left; exact N|left; exact N|right; right]. intros p Ip [K K']. apply (N p Ip). auto.
Qed.
Print Assumptions C127_closed_contours_are_nested_or_apart.
(** C128: a level has at most as many closed contours as the grid has points that are not on its border. *)
Theorem C128_number_of_closed_contours : forall fuel mem x y z level segments codes, meshed x y z -> with_axes x y z -> misses_the_level z level -> enough z fuel -> extractR fuel mem x y z level = Ok (segments, codes) ->
  forall l, NoDup l -> (forall i, In i l -> exists vs, nth_error segments i = Some (Verts R vs) /\ closed_outline vs) -> (Z.of_nat (length l) <= Z.max 0 (m_cols R z - 2) * Z.max 0 (m_rows R z - 2))%Z.
Proof.
  intros fuel mem x y z level segments codes M A Ms F E l Nd Hl. destruct (outline_mean _ _ _ _ _ _ _ _ M A Ms F E) as (curves & -> & Gd & Ds). assert (C1 : (1 <= m_cols R z)%Z) by apply M. assert (R1 : (1 <= m_rows R z)%Z) by apply M.
  rewrite <- (inner_count (m_cols R z) (m_rows R z)). set (l2 := map (fun i => (i, nth i curves [])) l).
  assert (K : forall i c, In (i, c) l2 -> nth_error curves i = Some c /\ closed_outline (map (vertex R Rplus Rminus Rmult Rdiv x y z level) c)).
  { intros i c H. apply in_map_iff in H as (i' & Ei & Ii). pose proof (f_equal fst Ei) as E1. pose proof (f_equal snd Ei) as E2. cbn [fst snd] in E1, E2. subst i'. destruct (Hl i Ii) as (vs & Hvs & Cl). unfold drawn in Hvs. rewrite nth_error_map in Hvs.
    destruct (nth_error curves i) as [c0|] eqn:Hc0; [|discriminate Hvs]. cbn [option_map] in Hvs. injection Hvs as <-. rewrite (nth_error_nth _ _ [] Hc0) in E2. subst c0. auto. }
  pose proof (count (m_cols R z) (m_rows R z) (above_of R Rgtb z level) C1 R1 1 (or_introl eq_refl) (mean_above z level) l2) as Co. assert (L2 : length l2 = length l) by apply map_length. rewrite <- L2. apply inj_le, Co.
  - unfold l2. rewrite map_map, map_id. exact Nd.
  - intros i c H. destruct (K i c H) as [B D]. apply Gd; [exact (nth_error_In _ _ B)|exact D].
  - intros i c j c' H H' N. destruct (K i c H) as [B D]. destruct (K j c' H') as [B' D']. apply (Ds i j c c' B B' N); [exact (g_closed _ _ _ _ _ (Gd c (nth_error_In _ _ B) D))|exact (g_closed _ _ _ _ _ (Gd c' (nth_error_In _ _ B') D'))].
Qed.
Print Assumptions C128_number_of_closed_contours.

(** *** The hypotheses are met *)
(** The contours of the levels 1/2 and 1/4 of a summit of height 1: the summit is inside both.  C125_mesh_case has two nested curves of one level *)
Lemma quarter_above : above_of R Rgtb peakZ (1 / 4) = (fun k => (k =? 4)%Z).
Proof. apply FunctionalExtensionality.functional_extensionality. intro k. unfold above_of. cbn. destruct (k =? 4)%Z; [apply Rgtb_true; lra|apply Rgtb_false; lra]. Qed.
Lemma quarter_centre : centre_of R Rplus Rdiv 4 Rgtb peakZ (1 / 4) = (fun p q r s => (1 <? (if p =? 4 then 1 else 0) + (if q =? 4 then 1 else 0) + (if r =? 4 then 1 else 0) + (if s =? 4 then 1 else 0)))%Z.
Proof.
  repeat (apply FunctionalExtensionality.functional_extensionality; intro). unfold centre_of. cbn. destruct (x =? 4)%Z, (x0 =? 4)%Z, (x1 =? 4)%Z, (x2 =? 4)%Z; cbn; first [apply Rgtb_true; lra|apply Rgtb_false; lra].
Qed.
Lemma quarter_outline : exists s c vs, extractR 60 (fun _ => blank) peakX peakY peakZ (1 / 4) = Ok (s, c) /\ In (Verts R vs) s /\ closed_outline vs.
Proof.
  assert (M : meshed peakX peakY peakZ) by (unfold meshed; cbn; lia). assert (F : enough peakZ 60) by (unfold enough; cbn; lia).
  destruct (master R Rplus Rminus Rmult Rdiv 4 Rgtb Reqb 60 (fun _ => blank) peakX peakY peakZ (1 / 4) M F) as (T & curves & cd & E & _ & Et & _).
  rewrite quarter_above, quarter_centre in Et. vm_compute in Et. injection Et as <-. eexists. eexists. eexists. split; [exact E|]. split; [left; reflexivity|].
  apply closed_map; [cbn; lia|]. eexists. split; [eexists; reflexivity|]. match goal with |- finishes ?l ?e => exists (removelast l); reflexivity end.
Qed.
Example C127_case : meshed peakX peakY peakZ /\ with_axes peakX peakY peakZ /\ misses_the_level peakZ (1 / 2) /\ misses_the_level peakZ (1 / 4) /\ enough peakZ 60 /\
  exists s c vs s' c' vs', extractR 60 (fun _ => blank) peakX peakY peakZ (1 / 2) = Ok (s, c) /\ extractR 60 (fun _ => blank) peakX peakY peakZ (1 / 4) = Ok (s', c') /\ In (Verts R vs) s /\ In (Verts R vs') s' /\ closed_outline vs /\ closed_outline vs'.
Proof.
  split; [unfold meshed; cbn; lia|]. split; [exact peak_axes|]. split; [intros k _; cbn; destruct (k =? 4)%Z; lra|]. split; [intros k _; cbn; destruct (k =? 4)%Z; lra|]. split; [unfold enough; cbn; lia|].
  destruct peak_outline as (s & c & vs & E & H & Cl). destruct quarter_outline as (s' & c' & vs' & E' & H' & Cl'). exists s, c, vs, s', c', vs'. auto 6.
Qed.
(** Nine points, one of them inside, and one closed contour *)
Example C128_case : meshed peakX peakY peakZ /\ with_axes peakX peakY peakZ /\ misses_the_level peakZ (1 / 2) /\ enough peakZ 60 /\
  exists s c, extractR 60 (fun _ => blank) peakX peakY peakZ (1 / 2) = Ok (s, c) /\ NoDup [0%nat] /\ (forall i, In i [0%nat] -> exists vs, nth_error s i = Some (Verts R vs) /\ closed_outline vs) /\
    (Z.of_nat (length [0%nat]) = Z.max 0 (m_cols R peakZ - 2) * Z.max 0 (m_rows R peakZ - 2))%Z.
Proof.
  split; [unfold meshed; cbn; lia|]. split; [exact peak_axes|]. split; [intros k _; cbn; destruct (k =? 4)%Z; lra|]. split; [unfold enough; cbn; lia|].
  destruct peak_curves as (s & c & E & ->). eexists. exists c. split; [exact E|]. split; [constructor; [intros []|constructor]|]. split; [|reflexivity]. intros i [<-|[]]. eexists. split; [reflexivity|].
  apply closed_map; [cbn; lia|]; exists (4, 1)%Z; split; [eexists; reflexivity|exists [(4, 1); (4, 5); (4, 7); (4, 3)]%Z; reflexivity].
Qed.

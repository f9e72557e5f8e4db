(** C149: with small noise every closed contour stays closed and goes through the same sides of the grid. *)
From Coq Require Import Reals Lra Lia Bool List.
From Verif Require Import M_Base M_Cntr M_Extract S_Cntr S_Lines S_Enclose S_Border S_Cross S_Turn S_Noise P_Cntr P_Cross P_Lines L_Turn L_Loop L_Nest L_Lines P_Enclose P_Nest P_Turn P_Border P_Hill P_Noise.
From Verif Require L_Cntr2 L_Cntr10.
Import ListNotations.
Open Scope Z_scope.

Lemma same_side_sym e f : same_side e f -> same_side f e.
Proof. unfold same_side. destruct e, f; cbn. intros [H|H]; injection H as -> ->; auto. Qed.
Lemma same_side_trans e f g : same_side e f -> same_side f g -> same_side e g.
Proof. unfold same_side. destruct e, f, g; cbn. intros [H|H] [K|K]; injection H as -> ->; injection K as -> ->; auto. Qed.
Lemma next_both {A} (P : A -> Prop) : forall l, (forall l1 l2 u v, l = l1 ++ u :: v :: l2 -> (P u <-> P v)) -> forall a b, In a l -> In b l -> P a -> P b.
Proof.
  induction l as [|x l IH]; [intros _ a b []|]. intros N a b Ha Hb Pa. destruct l as [|y l].
  - destruct Ha as [->|[]], Hb as [->|[]]. exact Pa.
  - pose proof (N [] l x y eq_refl) as XY. assert (N' : forall l1 l2 u v, y :: l = l1 ++ u :: v :: l2 -> (P u <-> P v)) by (intros l1 l2 u v E; apply (N (x :: l1) l2); rewrite E; reflexivity).
    assert (Py : P y) by (destruct Ha as [->|Ha]; [apply XY, Pa|apply (IH N' a); [exact Ha|left; reflexivity|exact Pa]]).
    destruct Hb as [<-|Hb]; [apply XY, Py|]. apply (IH N' y); [left; reflexivity|exact Hb|exact Py].
Qed.
(** A side is one of those of a curve *)
Definition has (c : list (Z * Z)) (e : Z * Z) : Prop := exists g, In g c /\ same_side e g.
Lemma has_same c e f : same_side e f -> has c e -> has c f.
Proof. intros S (g & H & G). exists g. split; [exact H|]. eapply same_side_trans; [apply same_side_sym, S|exact G]. Qed.
Section Mesh.
Variables cols rows : Z.
Lemma visits_pos above c e : is_curve cols rows above c -> has c e -> (1 <= visits e c)%nat.
Proof.
  intros Ic (g & Hg & S). unfold visits. assert (K : exists h, In h (if repeats c then removelast c else c) /\ same_side e h).
  { destruct (repeats c) eqn:Rp; [|exists g; auto]. exists g. split; [|exact S]. apply (once_in cols rows above c Ic); [apply (repeats_iff c (cv_length _ _ _ _ Ic)); exact Rp|exact Hg]. }
  destruct K as (h & Hh & Sh). assert (F : In h (filter (same_sideb e) (if repeats c then removelast c else c))) by (apply filter_In; split; [exact Hh|apply same_sideb_iff; exact Sh]). destruct (filter _ _); [destruct F|cbn; lia].
Qed.
Lemma visits_has c e : (1 <= visits e c)%nat -> has c e.
Proof.
  unfold visits. destruct (filter _ _) as [|h l] eqn:E; [cbn; lia|]. intros _. assert (F : In h (filter (same_sideb e) (if repeats c then removelast c else c))) by (rewrite E; left; reflexivity). apply filter_In in F as [F S]. exists h. split; [|apply same_sideb_iff; exact S].
  destruct (repeats c); [|exact F]. destruct c as [|a c]; [destruct F|]. rewrite (app_removelast_last (0, 0) (l := a :: c)) by discriminate. apply in_or_app. left. exact F.
Qed.
Lemma total_has cs e : (1 <= total_visits e cs)%nat -> exists c, In c cs /\ has c e.
Proof.
  induction cs as [|c cs IH]; [cbn; lia|]. unfold total_visits. cbn [fold_right]. fold (total_visits e cs). intro H. destruct (visits e c) as [|n] eqn:V.
  - destruct IH as (d & A & B); [lia|]. exists d. split; [right; exact A|exact B].
  - exists c. split; [left; reflexivity|]. apply visits_has. lia.
Qed.
Lemma one_curve above cs c d e : Forall (is_curve cols rows above) cs -> In c cs -> In d cs -> has c e -> has d e -> total_visits e cs = 1%nat -> c = d.
Proof.
  intros Fc Hc Hd A B. rewrite Forall_forall in Fc. pose proof (visits_pos above c e (Fc c Hc) A) as V. pose proof (visits_pos above d e (Fc d Hd) B) as W. clear Fc A B.
  induction cs as [|x cs IH]; [destruct Hc|]. unfold total_visits. cbn [fold_right]. fold (total_visits e cs). intro T. destruct Hc as [->|Hc], Hd as [->|Hd]; [reflexivity| | |].
  - exfalso. pose proof (total_ge e d cs Hd). lia.
  - exfalso. pose proof (total_ge e c cs Hc). lia.
  - pose proof (total_ge e c cs Hc). apply IH; try assumption. lia.
Qed.

Section Two.
Variables above above' : Z -> bool.
Variables cs cs' : list (list (Z * Z)).
Hypothesis Fc : Forall (is_curve cols rows above) cs.
Hypothesis Fc' : Forall (is_curve cols rows above') cs'.
Hypothesis Cr : forall e, side cols rows e -> (crossed above e <-> crossed above' e).
Hypothesis Tv : forall e, side cols rows e -> crossed above e -> total_visits e cs = 1%nat.
Hypothesis J : forall e f, runs_between cs' e f -> runs_between cs e f.
(** A curve of the one list that has a side of a curve of the other has only such sides. *)
Lemma stays_on c c' e0 : In c cs -> In c' cs' -> has c e0 -> In e0 c' -> forall e, In e c' -> has c e.
Proof using All.
  intros Hc Hc' H0 He0 e He. refine (next_both (has c) c' _ e0 e He0 He H0). intros l1 l2 u v E. assert (Nx : next_in c' u v) by (exists l1, l2; exact E).
  destruct (J u v) as (d & u' & v' & Hd & Su & Sv & Nd); [exists c', u, v; split; [exact Hc'|]; split; [left; reflexivity|]; split; [left; reflexivity|left; exact Nx]|].
  assert (Iu : In u' d /\ In v' d) by (destruct Nd as [(k1 & k2 & ->)|(k1 & k2 & ->)]; split; apply in_or_app; right; cbn; auto). destruct Iu as [Iu Iv].
  assert (K : forall w, In w d -> has c w -> c = d).
  { intros w Hw Hcw. pose proof Fc as F2. rewrite Forall_forall in F2. destruct (cv_sides _ _ _ _ (F2 d Hd) w Hw) as [S1 S2]. apply (one_curve above cs c d w); try assumption; [exists w; split; [exact Hw|left; reflexivity]|apply Tv; assumption]. }
  split; intro H.
  - rewrite (K u' Iu (has_same c u u' Su H)). exists v'. auto.
  - rewrite (K v' Iv (has_same c v v' Sv H)). exists u'. auto.
Qed.
End Two.

Hypothesis C1 : 1 <= cols.
Lemma closed_inner above t c e : good cols rows above t c -> has c e -> side cols rows e -> ~ outer cols rows e.
Proof.
  intros [Ic Hl Cc Cu Un] (g & Hg & Sg) Se O. pose proof (apart cols rows above C1 c Ic Hl Cc 1 (or_introl eq_refl) Un _ Hg) as X. pose proof (fun p => border_outside cols rows above C1 c Ic Hl Cc 1 (or_introl eq_refl) p) as B.
  destruct e as [p q]. destruct Se as (Ip & Iq & _). unfold outer in O. assert (Op : inside_at cols c 1 p = false) by (apply B; [exact Ip|tauto]). assert (Oq : inside_at cols c 1 q = false) by (apply B; [exact Iq|tauto]).
  destruct Sg as [-> | ->]; cbn [fst snd] in X; rewrite Op, Oq in X; discriminate X.
Qed.
(** Two closed curves through the same sides have the same points inside. *)
Lemma same_inside_at above above' t t' c c' sx : sx = 1 \/ sx = -1 -> good cols rows above t c -> good cols rows above' t' c' -> (forall p q, side cols rows (p, q) -> (goes_through c p q <-> goes_through c' p q)) ->
  forall p, S_Cntr.in_mesh cols rows p -> inside_at cols c sx p = inside_at cols c' sx p.
Proof.
  intros SX [Ic Hl Cc Cu Un] [Ic' Hl' Cc' Cu' Un'] G. set (f := inside_at cols c sx). set (f' := inside_at cols c' sx).
  assert (K : forall n r, 0 <= Z.of_nat n < cols -> 0 <= r < rows -> f (Z.of_nat n + r * cols) = f' (Z.of_nat n + r * cols)).
  { induction n as [|n IH]; intros r Hn Hr.
    - destruct (at_coords cols rows (Z.of_nat 0) r Hn Hr) as (A & B & _). unfold f, f'. rewrite (border_outside cols rows above C1 c Ic Hl Cc sx SX _ A) by (right; right; left; exact B).
      rewrite (border_outside cols rows above' C1 c' Ic' Hl' Cc' sx SX _ A) by (right; right; left; exact B). reflexivity.
    - specialize (IH r ltac:(lia) Hr). destruct (at_coords cols rows (Z.of_nat n) r ltac:(lia) Hr) as (A & B & D). destruct (at_coords cols rows (Z.of_nat (S n)) r Hn Hr) as (A' & B' & D').
      assert (Sd : side cols rows (Z.of_nat n + r * cols, Z.of_nat (S n) + r * cols)) by (split; [exact A|]; split; [exact A'|]; left; rewrite D, D', B, B'; lia).
      pose proof (separated cols rows above C1 c Ic Hl Cc sx SX Un _ Sd) as X. pose proof (separated cols rows above' C1 c' Ic' Hl' Cc' sx SX Un' _ Sd) as X'.
      rewrite <- goes_through_iff in X, X'. specialize (G (Z.of_nat n + r * cols) (Z.of_nat (S n) + r * cols) Sd). cbn [fst snd] in X, X'. fold f in X. fold f' in X'. rewrite IH in X. rewrite <- X, <- X' in G.
      destruct (f' (Z.of_nat n + r * cols)), (f (Z.of_nat (S n) + r * cols)), (f' (Z.of_nat (S n) + r * cols)); cbn in G; try reflexivity; exfalso; destruct G as [G1 G2]; (discriminate (G1 eq_refl) || discriminate (G2 eq_refl)). }
  intros p Ip. destruct (coords cols rows p C1 Ip) as (P1 & P2 & P3).
  specialize (K (Z.to_nat (col_of cols p)) (row_of cols p)). rewrite Z2Nat.id in K by lia. replace (col_of cols p + row_of cols p * cols) with p in K by (unfold col_of, row_of; pose proof (Z.div_mod p cols ltac:(lia)); lia). exact (K P1 P2).
Qed.
Lemma same_inside above above' t t' c c' : good cols rows above t c -> good cols rows above' t' c' -> (forall p q, goes_through c p q <-> goes_through c' p q) ->
  forall p, S_Cntr.in_mesh cols rows p -> (encloses cols c p <-> encloses cols c' p).
Proof.
  intros Gd Gd' G p Ip. pose proof (same_inside_at above above' t t' c c' 1 (or_introl eq_refl) Gd Gd' ltac:(intros; apply G) p Ip) as K. destruct Gd as [Ic _ Cc _ _], Gd' as [Ic' _ Cc' _ _].
  rewrite (encloses_inside cols rows above C1 c Ic Cc p Ip), (encloses_inside cols rows above' C1 c' Ic' Cc' p Ip), K. reflexivity.
Qed.
Lemma counterpart above above' cs cs' : Forall (is_curve cols rows above) cs -> Forall (is_curve cols rows above') cs' -> (forall e, side cols rows e -> (crossed above e <-> crossed above' e)) ->
  (forall e, side cols rows e -> crossed above e -> total_visits e cs = 1%nat) -> (forall e, side cols rows e -> crossed above' e -> total_visits e cs' = 1%nat) ->
  (forall e f, runs_between cs e f <-> runs_between cs' e f) -> (forall c, In c cs -> closed_curve c -> exists t, good cols rows above t c) -> (forall c, In c cs' -> closed_curve c -> exists t, good cols rows above' t c) ->
  forall c, In c cs -> closed_curve c -> exists c', In c' cs' /\ closed_curve c' /\ (forall p q, goes_through c p q <-> goes_through c' p q) /\ forall p, S_Cntr.in_mesh cols rows p -> (encloses cols c p <-> encloses cols c' p).
Proof.
  intros Fc Fc' Cr Tv Tv' J G G' c Hc Cc. pose proof Fc as F1. pose proof Fc' as F2. rewrite Forall_forall in F1, F2. destruct (closed_form cols rows above c (F1 c Hc) Cc) as (e0 & m0 & E0). assert (I0 : In e0 c) by (rewrite E0; left; reflexivity). clear E0 m0.
  destruct (cv_sides _ _ _ _ (F1 c Hc) e0 I0) as [S0 X0]. destruct (total_has cs' e0) as (c' & Hc' & (g & Hg & Sg)); [rewrite Tv'; [lia|exact S0|apply Cr; assumption]|].
  assert (H0 : has c g) by (exists e0; split; [exact I0|apply same_side_sym, Sg]).
  assert (Sub : forall e, In e c' -> has c e) by (apply (stays_on above above' cs cs' Fc Fc' Cr Tv ltac:(intros; apply J; assumption) c c' g); assumption).
  assert (Cc' : closed_curve c').
  { destruct (cv_ends _ _ _ _ (F2 c' Hc')) as [X|(e & f & (l & B) & _ & O & _)]; [exact X|]. exfalso. assert (Ie : In e c') by (rewrite B; left; reflexivity). destruct (G c Hc Cc) as (t & Gt). apply (closed_inner above t c e Gt (Sub e Ie)); [apply (cv_sides _ _ _ _ (F2 c' Hc') e Ie)|exact O]. }
  assert (Sup : forall e, In e c -> has c' e).
  { apply (stays_on above' above cs' cs Fc' Fc ltac:(intros; symmetry; apply Cr; assumption) Tv' ltac:(intros; apply J; assumption) c' c e0); try assumption. exists g. auto. }
  assert (Gt : forall p q, goes_through c p q <-> goes_through c' p q).
  { intros p q. rewrite !goes_through_iff. split; intros (h & Hh & Sh); [destruct (Sup h Hh) as (k & Hk & Sk)|destruct (Sub h Hh) as (k & Hk & Sk)]; exists k; (split; [exact Hk|eapply same_side_trans; eassumption]). }
  exists c'. split; [exact Hc'|]. split; [exact Cc'|]. split; [exact Gt|]. destruct (G c Hc Cc) as (t & Gd). destruct (G' c' Hc' Cc') as (t' & Gd'). exact (same_inside above above' t t' c c' Gd Gd' Gt).
Qed.
End Mesh.

(** The curves of an extraction *)
Lemma full fuel mem x y z level : meshed x y z -> enough z fuel -> exists curves codes, extractR fuel mem x y z level = Ok (drawn R Rplus Rminus Rmult Rdiv x y z level curves, codes) /\
  Forall (is_curve (m_cols R z) (m_rows R z) (above_of R Rgtb z level)) curves /\
  (forall e, side (m_cols R z) (m_rows R z) e -> crossed (above_of R Rgtb z level) e -> 2 <= m_cols R z -> 2 <= m_rows R z -> total_visits e curves = 1%nat) /\
  (forall c, In c curves -> closed_curve c -> exists t, good (m_cols R z) (m_rows R z) (above_of R Rgtb z level) t c) /\
  (forall e f, runs_between curves e f <-> joined (m_cols R z) (m_rows R z) (above_of R Rgtb z level) (mean_above z level) e f).
Proof.
  intros M F. destruct (master R Rplus Rminus Rmult Rdiv 4%R Rgtb Reqb fuel mem x y z level M F) as (T & curves & cd & E & _ & Et & HT & Fc & Tv & Cu). exists curves, (map (fun c => Codes R (cd c)) curves). split; [exact E|]. split; [exact Fc|]. split; [intros; apply Tv; assumption|].
  pose proof M as (_ & _ & _ & _ & M1 & M2). split.
  - rewrite Forall_forall in Fc, Cu. intros c Hc Cc. pose proof (Fc c Hc) as Ic. exists (fun c => T (fst c + 1, snd c + 1)).
    assert (D : 2 <= m_cols R z /\ 2 <= m_rows R z).
    { pose proof (cv_length _ _ _ _ Ic) as L. destruct c as [|a [|b l]]; [cbn in L; lia|cbn in L; lia|]. destruct (cv_steps _ _ _ _ Ic a b) as [_ (q & ([A B] & _) & _)]; [exists [], l; reflexivity|]. lia. }
    constructor; [exact Ic|exact (proj1 (trace_sides _ _ _ _ fuel mem curves M2 M1 F Et c Hc) Cc)|exact Cc|exact (Cu c Hc)|]. intros e He.
    destruct (cv_sides _ _ _ _ Ic e He) as [Se Ce]. rewrite (passes_visits _ (m_rows R z) (above_of R Rgtb z level) M2 c Ic Cc e Se). pose proof (visited _ _ _ c Ic Cc e He) as V1. pose proof (total_ge e c curves Hc) as V2.
    rewrite (Tv (proj1 D) (proj2 D) e Se Ce) in V2. lia.
  - destruct (trace_lines (m_cols R z) (m_rows R z) (above_of R Rgtb z level) (centre_of R Rplus Rdiv 4%R Rgtb z level) fuel mem M2 M1 F) as (T2 & curves2 & Ht & HT2 & J). rewrite Et in Ht. injection Ht as <-.
    intros e f. rewrite J. split; apply joined_middle; intro q; [|symmetry]; apply mean_T, HT2.
Qed.
Lemma both_full : forall fuel mem fuel' mem' x y z z' level eps, meshed x y z -> enough z fuel -> enough z fuel' -> noisy z z' eps -> clear_of z level eps ->
  exists curves codes curves' codes', extractR fuel mem x y z level = Ok (drawn R Rplus Rminus Rmult Rdiv x y z level curves, codes) /\ extractR fuel' mem' x y z' level = Ok (drawn R Rplus Rminus Rmult Rdiv x y z' level curves', codes') /\
  Forall (is_curve (m_cols R z) (m_rows R z) (above_of R Rgtb z level)) curves /\ Forall (is_curve (m_cols R z) (m_rows R z) (above_of R Rgtb z' level)) curves' /\
  (forall c, In c curves -> closed_curve c -> exists t, good (m_cols R z) (m_rows R z) (above_of R Rgtb z level) t c) /\ (forall c, In c curves' -> closed_curve c -> exists t, good (m_cols R z) (m_rows R z) (above_of R Rgtb z' level) t c) /\
  (forall c, In c curves -> closed_curve c -> exists c', In c' curves' /\ closed_curve c' /\ (forall p q, goes_through c p q <-> goes_through c' p q) /\ forall p, S_Cntr.in_mesh (m_cols R z) (m_rows R z) p -> (encloses (m_cols R z) c p <-> encloses (m_cols R z) c' p)) /\
  (forall c', In c' curves' -> closed_curve c' -> exists c, In c curves /\ closed_curve c /\ (forall p q, goes_through c p q <-> goes_through c' p q) /\ forall p, S_Cntr.in_mesh (m_cols R z) (m_rows R z) p -> (encloses (m_cols R z) c p <-> encloses (m_cols R z) c' p)).
Proof.
  intros fuel mem fuel' mem' x y z z' level eps M F F' N C.
  assert (M' : meshed x y z') by (unfold meshed in *; rewrite (nz_rows _ _ _ N), (nz_cols _ _ _ N); exact M). assert (F2 : enough z' fuel') by (unfold enough in *; rewrite (nz_rows _ _ _ N), (nz_cols _ _ _ N); exact F').
  destruct (full fuel mem x y z level M F) as (cs & cd & E & Fc & Tv & G & J). destruct (full fuel' mem' x y z' level M' F2) as (cs' & cd' & E' & Fc' & Tv' & G' & J').
  exists cs, cd, cs', cd'. split; [exact E|]. split; [exact E'|]. rewrite (nz_rows _ _ _ N), (nz_cols _ _ _ N) in Fc', Tv', G', J'. pose proof M as (_ & _ & _ & _ & M1 & M2).
  assert (JJ : forall e f, runs_between cs e f <-> runs_between cs' e f) by (intros e f; rewrite J, J'; symmetry; apply (joined_kept z z' level eps N C)).
  assert (Cr : forall e, side (m_cols R z) (m_rows R z) e -> (crossed (above_of R Rgtb z level) e <-> crossed (above_of R Rgtb z' level) e)).
  { intros [p q] (A & B & _). unfold crossed. cbn [fst snd]. rewrite !(above_kept z z' level eps N C) by assumption. reflexivity. }
  assert (Big : forall c above, is_curve (m_cols R z) (m_rows R z) above c -> 2 <= m_cols R z /\ 2 <= m_rows R z).
  { intros c above Ic. pose proof (cv_length _ _ _ _ Ic) as L. destruct c as [|a [|b l]]; [cbn in L; lia|cbn in L; lia|]. destruct (cv_steps _ _ _ _ Ic a b) as [_ (q & ([A B] & _) & _)]; [exists [], l; reflexivity|]. lia. }
  split; [exact Fc|]. split; [exact Fc'|]. split; [exact G|]. split; [exact G'|]. split.
  - intros c Hc Cc. pose proof Fc as F1. rewrite Forall_forall in F1. destruct (Big c _ (F1 c Hc)) as [B1 B2]. apply (counterpart (m_cols R z) (m_rows R z) M2 (above_of R Rgtb z level) (above_of R Rgtb z' level) cs cs'); auto.
  - intros c' Hc' Cc'. pose proof Fc' as F1. rewrite Forall_forall in F1. destruct (Big c' _ (F1 c' Hc')) as [B1 B2].
    destruct (counterpart (m_cols R z) (m_rows R z) M2 (above_of R Rgtb z' level) (above_of R Rgtb z level) cs' cs) with (c := c') as (c & A1 & A2 & A3 & A4); auto; [intros e Se; symmetry; apply Cr, Se|intros e f; symmetry; apply JJ|]. exists c. split; [exact A1|]. split; [exact A2|]. split; [intros p q; symmetry; apply A3|]. intros p Ip. symmetry. apply A4, Ip.
Qed.
(** When the noise is smaller than the margins, the closed contours with and without it correspond: they go through the same sides of the grid
    and enclose the same points. *)
Theorem C149_closed_contours : forall fuel mem fuel' mem' x y z z' level eps, meshed x y z -> enough z fuel -> enough z fuel' -> noisy z z' eps -> clear_of z level eps ->
  exists curves codes curves' codes', extractR fuel mem x y z level = Ok (drawn R Rplus Rminus Rmult Rdiv x y z level curves, codes) /\ extractR fuel' mem' x y z' level = Ok (drawn R Rplus Rminus Rmult Rdiv x y z' level curves', codes') /\
  (forall c, In c curves -> closed_curve c -> exists c', In c' curves' /\ closed_curve c' /\ (forall p q, goes_through c p q <-> goes_through c' p q) /\ forall p, S_Cntr.in_mesh (m_cols R z) (m_rows R z) p -> (encloses (m_cols R z) c p <-> encloses (m_cols R z) c' p)) /\
  (forall c', In c' curves' -> closed_curve c' -> exists c, In c curves /\ closed_curve c /\ (forall p q, goes_through c p q <-> goes_through c' p q) /\ forall p, S_Cntr.in_mesh (m_cols R z) (m_rows R z) p -> (encloses (m_cols R z) c p <-> encloses (m_cols R z) c' p)).
Proof.
  intros fuel mem fuel' mem' x y z z' level eps M F F' N C. destruct (both_full fuel mem fuel' mem' x y z z' level eps M F F' N C) as (cs & cd & cs' & cd' & E & E' & _ & _ & _ & _ & H). exists cs, cd, cs', cd'. auto.
Qed.
Print Assumptions C149_closed_contours.
(** The same for the outlines: vertices on the same sides of the grid, and the same grid points inside *)
Theorem C149_closed_outlines : forall fuel mem fuel' mem' x y z z' level eps s cd s' cd', meshed x y z -> with_axes x y z -> enough z fuel -> enough z fuel' -> noisy z z' eps -> clear_of z level eps ->
  extractR fuel mem x y z level = Ok (s, cd) -> extractR fuel' mem' x y z' level = Ok (s', cd') ->
  let counterpart vs vs' := (forall p q, side (m_cols R z) (m_rows R z) (p, q) -> (vertex_on x y vs p q <-> vertex_on x y vs' p q)) /\
    forall p, S_Cntr.in_mesh (m_cols R z) (m_rows R z) p -> (inside_of vs (node x y p) <-> inside_of vs' (node x y p)) in
  (forall vs, In (Verts R vs) s -> closed_outline vs -> exists vs', In (Verts R vs') s' /\ closed_outline vs' /\ counterpart vs vs') /\
  (forall vs', In (Verts R vs') s' -> closed_outline vs' -> exists vs, In (Verts R vs) s /\ closed_outline vs /\ counterpart vs vs').
Proof.
  intros fuel mem fuel' mem' x y z z' level eps s cd s' cd' M A F F' N C E E' cp.
  destruct (both_full fuel mem fuel' mem' x y z z' level eps M F F' N C) as (cs & ck & cs' & ck' & K & K' & Fc & Fc' & G & G' & H & H'). rewrite K in E. injection E as <- _. rewrite K' in E'. injection E' as <- _.
  assert (C1 : 1 <= m_cols R z) by apply M. rewrite Forall_forall in Fc, Fc'.
  assert (Ms : misses_the_level z level) by (intros k Hk X; pose proof (co_values _ _ _ C k Hk) as Y; pose proof (nz_values _ _ _ N k Hk) as W; rewrite X, Rminus_diag_eq, Rabs_R0 in Y by reflexivity; pose proof (Rabs_pos (m_at R z' k - m_at R z k)); lra).
  assert (Ms' : misses_the_level z' level).
  { intros k Hk X. rewrite (nz_rows _ _ _ N), (nz_cols _ _ _ N) in Hk. pose proof (co_values _ _ _ C k Hk) as Y. pose proof (nz_values _ _ _ N k Hk) as W. rewrite X, Rabs_minus_sym in W. lra. }
  assert (A' : with_axes x y z') by (unfold with_axes in *; rewrite (nz_rows _ _ _ N), (nz_cols _ _ _ N); exact A).
  assert (C1' : 1 <= m_cols R z') by (rewrite (nz_cols _ _ _ N); exact C1).
  assert (Cl : forall c, In c cs -> closed_outline (map (vertex R Rplus Rminus Rmult Rdiv x y z level) c) -> closed_curve c) by (intros c Hc; apply (outline_closed x y z level c C1 A Ms), Fc, Hc).
  assert (Cl' : forall c, In c cs' -> closed_outline (map (vertex R Rplus Rminus Rmult Rdiv x y z' level) c) -> closed_curve c).
  { intros c Hc. apply (outline_closed x y z' level c C1' A' Ms'). rewrite (nz_rows _ _ _ N), (nz_cols _ _ _ N). apply Fc', Hc. }
  assert (Cp : forall c c', In c cs -> In c' cs' -> closed_curve c -> closed_curve c' -> (forall p q, goes_through c p q <-> goes_through c' p q) -> cp (map (vertex R Rplus Rminus Rmult Rdiv x y z level) c) (map (vertex R Rplus Rminus Rmult Rdiv x y z' level) c')).
  { intros c c' Hc Hc' Cc Cc' Gt. pose proof (Fc c Hc) as Ic. pose proof (Fc' c' Hc') as Ic'. destruct (G c Hc Cc) as (t & Gd). destruct (G' c' Hc' Cc') as (t' & Gd'). split.
    - intros p q Sd. destruct A as (xs & ys & MX & MY & AX). destruct A' as (xs' & ys' & MX' & MY' & AX'). unfold vertex_on. rewrite <- (vertex_between x y z xs ys C1 MX MY AX level Ms c Ic p q Sd).
      rewrite <- (nz_rows _ _ _ N), <- (nz_cols _ _ _ N) in Ic', Sd. rewrite <- (vertex_between x y z' xs' ys' C1' MX' MY' AX' level Ms' c' Ic' p q Sd), <- !goes_through_iff. apply Gt.
    - intros p Ip. destruct A as (xs & ys & MX & MY & AX). destruct (axis_sign _ _ MX) as (sx & SX & RX). destruct (axis_sign _ _ MY) as (sy & SY & RY).
      pose proof (same_inside_at (m_cols R z) (m_rows R z) C1 _ _ t t' c c' sx SX Gd Gd' ltac:(intros; apply Gt) p Ip) as Same. destruct Gd as [_ Hl _ _ _], Gd' as [_ Hl' _ _ _].
      rewrite (inside_plane x y z xs ys C1 AX level Ms c Ic Hl Cc sx sy SX SY RX RY p Ip). rewrite <- (nz_rows _ _ _ N), <- (nz_cols _ _ _ N) in Ic', Ip. rewrite <- (nz_cols _ _ _ N) in Hl'. pose proof RX as RX'. pose proof RY as RY'. rewrite <- (nz_cols _ _ _ N) in RX'. rewrite <- (nz_rows _ _ _ N) in RY'.
      rewrite (inside_plane x y z' xs ys C1' ltac:(rewrite (nz_rows _ _ _ N), (nz_cols _ _ _ N); exact AX) level Ms' c' Ic' Hl' Cc' sx sy SX SY RX' RY' p Ip). rewrite (nz_cols _ _ _ N), Same. reflexivity. }
  unfold drawn. split.
  - intros vs Hv Co. apply in_map_iff in Hv as (c & Ec & Hc). injection Ec as <-. pose proof (Cl c Hc Co) as Cc. destruct (H c Hc Cc) as (c' & Hc' & Cc' & Gt & _).
    exists (map (vertex R Rplus Rminus Rmult Rdiv x y z' level) c'). split; [apply in_map_iff; exists c'; auto|]. split; [apply closed_map; [apply (Fc' c' Hc')|exact Cc']|]. apply Cp; assumption.
  - intros vs Hv Co. apply in_map_iff in Hv as (c' & Ec & Hc'). injection Ec as <-. pose proof (Cl' c' Hc' Co) as Cc'. destruct (H' c' Hc' Cc') as (c & Hc & Cc & Gt & _).
    exists (map (vertex R Rplus Rminus Rmult Rdiv x y z level) c). split; [apply in_map_iff; exists c; auto|]. split; [apply closed_map; [apply (Fc c Hc)|exact Cc]|]. apply Cp; assumption.
Qed.
Print Assumptions C149_closed_outlines.


(** The hypotheses are met: the summit of C129_case, whose contour is closed, with noise of 1/10 at every point, upwards or downwards *)
Definition shakyZ : mat R := mkMat R 3 3 (fun k => if (k =? 4)%Z then 9 / 10 else if (k =? 1)%Z then 1 / 10 else - (1 / 10))%R.
Example C149_closed_case : meshed peakX peakY peakZ /\ with_axes peakX peakY peakZ /\ enough peakZ 60 /\ noisy peakZ shakyZ (1 / 10)%R /\ clear_of peakZ (1 / 2)%R (1 / 10)%R /\
  let c := [(4, 1); (4, 5); (4, 7); (4, 3); (4, 1)] in
  closed_curve c /\ exists codes, extractR 60 (fun _ => blank) peakX peakY peakZ (1 / 2)%R = Ok (drawn R Rplus Rminus Rmult Rdiv peakX peakY peakZ (1 / 2)%R [c], codes).
Proof.
  split; [unfold meshed; cbn; lia|]. split; [exact peak_axes|]. split; [unfold enough; cbn; lia|]. split; [|split; [|split]].
  - constructor; [reflexivity..|]. intros k _. cbn [peakZ shakyZ m_at]. destruct (k =? 4); [|destruct (k =? 1)]; apply Rabs_le; lra.
  - constructor; [intros k _; cbn [peakZ m_at]; destruct (k =? 4); unfold Rabs; destruct (Rcase_abs _); lra|]. intros q _ S. exfalso. destruct q as [i j]. unfold saddle in S. cbn [fst snd peakZ m_at m_cols] in S.
    destruct (Z.eqb_spec (i + 0 + (j + 0) * 3) 4), (Z.eqb_spec (i + 1 + (j + 1) * 3) 4), (Z.eqb_spec (i + 1 + (j + 0) * 3) 4), (Z.eqb_spec (i + 0 + (j + 1) * 3) 4); try lia; lra.
  - exists (4, 1). split; [eexists; reflexivity|exists [(4, 1); (4, 5); (4, 7); (4, 3)]; reflexivity].
  - destruct peak_curves as (s & c & E & ->). exists c. exact E.
Qed.

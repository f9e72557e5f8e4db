(** C131-C133: what the eddies of a run enclose *)
From Coq Require Import Lia Permutation Bool QArith.
From Verif Require Import M_Base M_Tables M_Area M_Eddy M_Detect M_Cntr M_Extract M_Window M_Pipeline S_Cntr S_Tracking S_Levels S_Detect S_Window S_Pipeline S_Process S_Border S_Turn S_Enclose S_Inside
  L_Base L_Cntr7 L_Loop L_Nest L_Pipeline P_Cntr P_Detect P_Levels P_Tracking P_Window P_Pipeline P_Process P_Border P_Cross P_Enclose P_Nest L_Levels L_Levels2 L_Detect4 L_Witness.
Open Scope list_scope.
Open Scope Z_scope.

Lemma ngt_level a b : ngt a b = true <-> above_level a b.
Proof. apply ngt_true. Qed.
Lemma ngt_irr a : ngt a a = false.
Proof. destruct (ngt a a) eqn:E; [|reflexivity]. apply ngt_true in E as (p & q & -> & H & L). injection H as <-. exfalso. exact (Qlt_irrefl p L). Qed.
Lemma ngt_trans a b c : ngt a b = true -> ngt b c = true -> ngt a c = true.
Proof. rewrite !ngt_true. intros (p & q & -> & -> & L) (q' & r & E & -> & L'). injection E as <-. exists p, r. split; [reflexivity|]. split; [reflexivity|]. exact (Qlt_trans _ _ _ L' L). Qed.

(** The contours of a level and their eddies *)
Lemma good_lines o f level cs : one_shape o f -> border_on_one_side f level -> contour_lines o f level cs ->
  exists T curves, cs = map (map (position o f level)) curves /\ (forall cell, exists v, middle_value o f cell v /\ T cell = ngt v level) /\
    (forall c, In c curves -> good (width f) (height f) (value_above f level) T c) /\ Z.of_nat (length curves) <= Z.max 0 (width f - 2) * Z.max 0 (height f - 2).
Proof.
  intros Sh Bd (curves & Fc & -> & Tv & (T & HT & Cu) & Hl). exists T, curves. split; [reflexivity|]. split; [exact HT|]. destruct (one_shape_self _ _ Sh) as (S1 & S2 & S3).
  assert (C1 : 1 <= width f) by (unfold width; lia). assert (R1 : 1 <= height f) by (unfold height; lia). rewrite Forall_forall in Fc, Cu, Hl.
  assert (Cl : forall c, In c curves -> closed_curve c) by (intros c Hc; apply (inner_closed _ _ _ _ (Fc c Hc)), border_above; assumption).
  assert (G : forall c, In c curves -> good (width f) (height f) (value_above f level) T c).
  { intros c Hc. pose proof (Cl c Hc) as Cc. pose proof (Fc c Hc) as Ic. constructor; [exact Ic|exact (Hl c Hc Cc)|exact Cc|exact (Cu c Hc)|]. intros e He.
    destruct (cv_sides _ _ _ _ Ic e He) as [Se Ce]. rewrite (passes_visits _ (height f) (value_above f level) C1 c Ic Cc e Se). pose proof (visited _ _ _ c Ic Cc e He) as V1. pose proof (total_ge e c curves Hc) as V2. rewrite (Tv e Se Ce) in V2. lia. }
  split; [exact G|]. set (l := map (fun i => (i, nth i curves [])) (seq 0 (length curves))).
  assert (K : forall i c, In (i, c) l -> nth_error curves i = Some c).
  { intros i c H. apply in_map_iff in H as (i' & Ei & Hi). pose proof (f_equal fst Ei) as E1. pose proof (f_equal snd Ei) as E2. cbn [fst snd] in E1, E2. subst i' c. apply in_seq in Hi. apply nth_error_nth'. lia. }
  pose proof (count (width f) (height f) (value_above f level) C1 R1 1 (or_introl eq_refl) T l) as Co.
  assert (Ll : length l = length curves) by (unfold l; rewrite map_length, seq_length; reflexivity). rewrite <- Ll, <- (inner_count (width f) (height f)). apply inj_le, Co.
  - unfold l. rewrite map_map, map_id. apply seq_NoDup.
  - intros i c H. apply G. exact (nth_error_In _ _ (K i c H)).
  - intros i c j c' Hi Hj N e (g & Hg & G0) (g' & Hg' & G'). pose proof (nth_error_In _ _ (K i c Hi)) as Hc. pose proof (nth_error_In _ _ (K j c' Hj)) as Hc'. pose proof (Fc c Hc) as Ic. pose proof (Fc c' Hc') as Ic'.
    destruct (cv_sides _ _ _ _ Ic g Hg) as [Sg Cg]. pose proof (visited _ _ _ c Ic (Cl c Hc) g Hg) as V1.
    assert (V2 : (1 <= visits g c')%nat).
    { pose proof (visited _ _ _ c' Ic' (Cl c' Hc') g' Hg') as V. enough (visits g c' = visits g' c') by lia. unfold visits. f_equal. apply filter_ext. intro k. apply eq_true_iff_eq. rewrite !same_sideb_iff.
      pose proof (same_trans _ _ _ (same_sym _ _ G0) G') as GG. split; intro K'; [exact (same_trans _ _ _ (same_sym _ _ GG) K')|exact (same_trans _ _ _ GG K')]. }
    pose proof (two_visits unit (fun a _ => a) (fun a _ => a) (fun a _ => a) (fun a _ => a) tt (fun _ _ => true) (fun _ _ => true) g c c' i j curves (K i c Hi) (K j c' Hj) N) as V3. rewrite (Tv g Sg Cg) in V3. lia.
Qed.
Lemma kept_length fs : (length (kept fs) <= length fs)%nat.
Proof. unfold kept. induction fs as [|[|e|r] fs IH]; cbn [flat_map length app]; lia. Qed.
Lemma found_good o t f level N : field_at o t f -> one_shape o f -> border_on_one_side f level -> found_at o t level N ->
  exists T, (forall cell, exists v, middle_value o f cell v /\ T cell = ngt v level) /\
    (forall e, In e N -> exists c, outline e = map (position o f level) c /\ good (width f) (height f) (value_above f level) T c) /\ Z.of_nat (length N) <= Z.max 0 (width f - 2) * Z.max 0 (height f - 2).
Proof.
  intros Hf Sh Bd (f' & s & cs & fs & Hf' & _ & Hc & J & ->). rewrite (field_unique _ _ _ _ Hf' Hf) in Hc. destruct (good_lines _ _ _ _ Sh Bd Hc) as (T & curves & -> & HT & G & L). exists T. split; [exact HT|]. split.
  - intros e He. destruct (kept_judged _ _ _ _ _ J He) as (c0 & Ic0 & [_ Rc]). apply in_map_iff in Ic0 as (c & <- & Ic). exists c. split; [exact (outline_recorded _ _ _ _ Rc)|exact (G c Ic)].
  - apply Forall2_length in J. rewrite map_length in J. pose proof (kept_length fs). lia.
Qed.
(** Each row of the table belongs to an eddy found at some level; at the same step rows of one level belong to eddies found together *)
Lemma rows_found o hav t0 tf levels nt st files R st' : query_ok hav (t_query o) -> five_fitted o -> process st -> tracking o t0 tf (Some levels) nt true st = ((files, Ok R), st') ->
  exists sel, selects (fun x => ~ zero x) levels sel /\ forall t, In t (run_steps o t0 tf) \/ (exists r, In r (rows R) /\ r_time r = t) -> In t (run_steps o t0 tf) /\ exists found, Forall2 (found_at o t) sel found /\
    (forall r, In r (rows R) -> r_time r = t -> exists e, In e (List.concat found) /\ In r (rows_at t (r_id r) e) /\ incl (rows_at t (r_id r) e) (rows R)) /\
    (forall ids, NoDup ids -> (forall i, In i ids -> exists r, In r (rows R) /\ r_time r = t /\ r_id r = i) -> (length ids <= length (List.concat found))%nat).
Proof.
  intros Hq H5 Hp H. pose proof (nonzero_selects levels) as Hs. set (sel := nonzero_levels levels) in *. clearbody sel. exists sel. split; [exact Hs|]. destruct (C79_table_of_a_run _ _ _ _ _ _ _ _ _ _ Hq H5 Hp H) as [(ch & P & F) _].
  assert (Inc : forall r, In r (rows R) -> In (r_time r) (run_steps o t0 tf) /\ exists e, In (r_id r, e) (ch (r_time r)) /\ In r (rows_at (r_time r) (r_id r) e) /\ incl (rows_at (r_time r) (r_id r) e) (rows R)).
  { intros r Hr. assert (Hr' := Permutation_in _ P Hr). apply in_flat_map in Hr' as (t' & Ht & Hr'). apply in_flat_map in Hr' as ([id e] & He & Hr'). cbn [fst snd] in Hr'.
    assert (Ei : r_time r = t' /\ r_id r = id) by (unfold rows_at in Hr'; apply in_map_iff in Hr' as (r0 & <- & Hr0); apply contour_rows_In in Hr0 as (A & _); split; [reflexivity|exact A]).
    destruct Ei as [-> ->]. split; [exact Ht|]. exists e. split; [exact He|]. split; [exact Hr'|].
    intros q Hq'. apply (Permutation_in _ (Permutation_sym P)). apply in_flat_map. exists t'. split; [exact Ht|]. apply in_flat_map. exists (id, e). split; [exact He|exact Hq']. }
  intros t Ht0. assert (Ht : In t (run_steps o t0 tf)) by (destruct Ht0 as [Ht|(r & Hr & <-)]; [exact Ht|apply (Inc r Hr)]). split; [exact Ht|]. destruct (F t Ht) as (sel' & found & rest & A & B & C). rewrite (selects_unique _ _ _ _ A Hs) in B. exists found. split; [exact B|]. split.
  - intros r Hr <-. destruct (Inc r Hr) as (_ & e & He & X & Y). exists e. split; [|split; assumption]. apply (Permutation_in _ (Permutation_sym C)), in_or_app. left. apply in_map_iff. exists (r_id r, e). split; [reflexivity|exact He].
  - intros ids Nd Hi. assert (L1 : (length ids <= length (map fst (ch t)))%nat).
    { apply NoDup_incl_length; [exact Nd|]. intros i Ii. destruct (Hi i Ii) as (r & Hr & <- & <-). destruct (Inc r Hr) as (_ & e & He & _). apply in_map_iff. exists (r_id r, e). split; [reflexivity|exact He]. }
    apply Permutation_length in C. rewrite app_length, map_length in C. rewrite map_length in L1. lia.
Qed.
Lemma good_sizes o f : one_shape o f -> 1 <= width f /\ 1 <= height f.
Proof. intro Sh. destruct (one_shape_self _ _ Sh) as (_ & S2 & S3). unfold width, height. lia. Qed.
Lemma good_follows o f level e T c : outline e = map (position o f level) c -> good (width f) (height f) (value_above f level) T c -> follows o f level e c.
Proof. intros E [Ic _ Cc _ _]. split; [exact Ic|]. split; [exact Cc|exact E]. Qed.
(** At every step the border of the field lies on one side of each level (C115: then all contours are closed) *)
Definition closed_levels (o : tracker) (t0 : Z) (tf : option Z) (levels : list num) : Prop :=
  forall t level, In t (run_steps o t0 tf) -> In level levels -> ~ zero level -> exists f, field_at o t f /\ one_shape o f /\ border_on_one_side f level.

(** *** C131: every eddy encloses an extremum of its field: a point above the level with no higher neighbour, or a point not above it with no lower neighbour *)
Theorem C131_eddies_enclose_an_extremum : forall o hav t0 tf levels nt st files R st' r, query_ok hav (t_query o) -> five_fitted o -> process st -> closed_levels o t0 tf levels ->
  tracking o t0 tf (Some levels) nt true st = ((files, Ok R), st') -> In r (rows R) ->
  exists e f level c p, In r (rows_at (r_time r) (r_id r) e) /\ incl (rows_at (r_time r) (r_id r) e) (rows R) /\ field_at o (r_time r) f /\ In level levels /\ follows o f level e c /\
    off_the_border f p /\ encloses (width f) c p /\ ((above_level (value_at f p) level /\ no_higher_neighbour f p) \/ (~ above_level (value_at f p) level /\ no_lower_neighbour f p)).
Proof.
  intros o hav t0 tf levels nt st files R st' r Hq H5 Hp Hb H Hr. destruct (rows_found _ _ _ _ _ _ _ _ _ _ Hq H5 Hp H) as (sel & Hs & K). destruct (K (r_time r)) as (Ht & found & B & Ro & _); [right; eauto|].
  destruct (Ro r Hr eq_refl) as (e & He & X & Y). apply in_concat in He as (N & HN & IN). destruct (Forall2_In_r _ _ _ _ B HN) as (level & Hl & Hf). destruct (selects_In _ _ _ _ Hs Hl) as [L1 L2].
  destruct (Hb _ _ Ht L1 L2) as (f & Ff & Sh & Bd). destruct (found_good _ _ _ _ _ Ff Sh Bd Hf) as (T & _ & G & _). destruct (G e IN) as (c & Eo & Gc). destruct (good_sizes _ _ Sh) as [C1 R1]. pose proof Gc as [Ic Hl' Cc Cu Un].
  set (z := mkMat num (height f) (width f) (value_at f)).
  destruct (extremum ngt ngt_irr ngt_trans z level c 1 C1 R1 Ic Hl' Cc (or_introl eq_refl) Un) as (p & Ip & Pp & Ex). cbn [z m_cols m_rows m_at] in Ip, Pp, Ex. unfold above_of in Ex. cbn [z m_at] in Ex.
  exists e, f, level, c, p. split; [exact X|]. split; [exact Y|]. split; [exact Ff|]. split; [exact L1|]. split; [exact (good_follows _ _ _ _ _ _ Eo Gc)|].
  split; [split; [exact Ip|]; intros [_ Bp]; rewrite (border_outside _ _ _ C1 c Ic Hl' Cc 1 (or_introl eq_refl) p Ip Bp) in Pp; discriminate Pp|].
  split; [apply (encloses_inside _ _ _ C1 c Ic Cc p Ip); exact Pp|]. destruct Ex as [[A E]|[A E]]; [left|right].
  - split; [apply ngt_level; exact A|]. intros q S V. apply ngt_level in V. rewrite (E q S) in V. discriminate V.
  - split; [rewrite <- ngt_level, A; discriminate|]. intros q S V. apply ngt_level in V. rewrite (E q S) in V. discriminate V.
Qed.
Print Assumptions C131_eddies_enclose_an_extremum.

(** *** C132: the eddies of one step are nested or apart *)
Lemma levels_compare level level' : (forall v, ngt v level' = true -> ngt v level = true) \/ (forall v, ngt v level = true -> ngt v level' = true).
Proof.
  destruct level as [|a], level' as [|b]; try (left; intros v H; apply ngt_true in H as (p & q & _ & E & _); discriminate E); try (right; intros v H; apply ngt_true in H as (p & q & _ & E & _); discriminate E).
  destruct (Qlt_le_dec a b) as [L|L]; [left|right]; intros v H; apply ngt_true in H as (p & q & -> & E & V); injection E as <-; apply ngt_true; eexists _, _; (split; [reflexivity|]; split; [reflexivity|]).
  - exact (Qlt_trans _ _ _ L V).
  - exact (Qle_lt_trans _ _ _ L V).
Qed.
Lemma good_nested f level level' T T' c c' : 1 <= width f -> 1 <= height f -> good (width f) (height f) (value_above f level) T c -> good (width f) (height f) (value_above f level') T' c' ->
  (forall v, ngt v level' = true -> ngt v level = true) -> (forall cell, T' cell = true -> T cell = true) -> nested_in f c c' \/ nested_in f c' c \/ disjoint_from f c c'.
Proof.
  intros C1 R1 [Ic Hl Cc Cu Un] [Ic' Hl' Cc' Cu' Un'] Lv Tv. pose proof (encloses_inside _ _ _ C1 c Ic Cc) as En. pose proof (encloses_inside _ _ _ C1 c' Ic' Cc') as En'.
  destruct (laminar (width f) (height f) C1 R1 (value_above f level) (value_above f level') T T' c c' Ic Hl Cc Cu Un Ic' Hl' Cc' Cu' Un') with (sx := 1) as [N|[N|N]]; auto.
  - intros p _ K. apply Lv, K.
  - left. intros p Ip K. apply (En' p Ip), (N p Ip), (En p Ip). exact K.
  - right. left. intros p Ip K. apply (En p Ip), (N p Ip), (En' p Ip). exact K.
  - right. right. intros p Ip [K K']. apply (N p Ip); [apply (En p Ip)|apply (En' p Ip)]; assumption.
Qed.
Lemma Forall2_same {A B} (P : A -> B -> Prop) l l' : Forall2 P l l' -> NoDup l -> forall a b b', (exists i, nth_error l i = Some a /\ nth_error l' i = Some b) -> (exists i, nth_error l i = Some a /\ nth_error l' i = Some b') -> b = b'.
Proof. intros _ Nd a b b' (i & A1 & B1) (j & A2 & B2). assert (i = j) by (apply (proj1 (NoDup_nth_error l) Nd); [apply nth_error_Some; congruence|congruence]). subst j. congruence. Qed.
Lemma Forall2_index {A B} (P : A -> B -> Prop) l l' b : Forall2 P l l' -> In b l' -> exists a i, nth_error l i = Some a /\ nth_error l' i = Some b /\ P a b.
Proof.
  induction 1 as [|x y l l' H _ IH]; [intros []|]. intros [<-|Hb]; [exists x, O; auto|]. destruct (IH Hb) as (a & i & A1 & A2 & A3). exists a, (S i). auto.
Qed.
Lemma selects_NoDup P l l' : selects P l l' -> NoDup l -> NoDup l'.
Proof. induction 1 as [|x l l' _ S IH|x l l' _ S IH]; intro N; [constructor| |]; inversion N as [|? ? N1 N2]; subst; [constructor; auto; intro X; apply (selects_In _ _ _ _ S) in X; tauto|auto]. Qed.
Theorem C132_eddies_of_a_step_are_nested_or_apart : forall o hav t0 tf levels nt st files R st' r r', query_ok hav (t_query o) -> five_fitted o -> process st -> closed_levels o t0 tf levels ->
  tracking o t0 tf (Some levels) nt true st = ((files, Ok R), st') -> In r (rows R) -> In r' (rows R) -> r_time r = r_time r' ->
  exists e e' f level level' c c', field_at o (r_time r) f /\ In r (rows_at (r_time r) (r_id r) e) /\ incl (rows_at (r_time r) (r_id r) e) (rows R) /\ In r' (rows_at (r_time r') (r_id r') e') /\ incl (rows_at (r_time r') (r_id r') e') (rows R) /\
    In level levels /\ In level' levels /\ follows o f level e c /\ follows o f level' e' c' /\
    ((level = level' /\ NoDup levels) \/ order_does_not_matter o f -> nested_in f c c' \/ nested_in f c' c \/ disjoint_from f c c').
Proof.
  intros o hav t0 tf levels nt st files R st' r r' Hq H5 Hp Hb H Hr Hr' Et. destruct (rows_found _ _ _ _ _ _ _ _ _ _ Hq H5 Hp H) as (sel & Hs & K). destruct (K (r_time r)) as (Ht & found & B & Ro & _); [right; eauto|].
  destruct (Ro r Hr eq_refl) as (e & He & X & Y). destruct (Ro r' Hr' (eq_sym Et)) as (e' & He' & X' & Y'). apply in_concat in He as (N & HN & IN). apply in_concat in He' as (N' & HN' & IN').
  destruct (Forall2_index _ _ _ _ B HN) as (level & i & Hi & HiN & Hf). destruct (Forall2_index _ _ _ _ B HN') as (level' & j & Hj & HjN & Hf').
  destruct (selects_In _ _ _ _ Hs (nth_error_In _ _ Hi)) as [L1 L2]. destruct (selects_In _ _ _ _ Hs (nth_error_In _ _ Hj)) as [L1' L2'].
  destruct (Hb _ _ Ht L1 L2) as (f & Ff & Sh & Bd). destruct (Hb _ _ Ht L1' L2') as (f' & Ff' & _ & Bd'). rewrite (field_unique _ _ _ _ Ff' Ff) in *. clear f' Ff'. destruct (good_sizes _ _ Sh) as [C1 R1].
  assert (G : exists T T' c c', outline e = map (position o f level) c /\ outline e' = map (position o f level') c' /\ good (width f) (height f) (value_above f level) T c /\ good (width f) (height f) (value_above f level') T' c' /\
    (forall cell, exists v, middle_value o f cell v /\ T cell = ngt v level) /\ (forall cell, exists v, middle_value o f cell v /\ T' cell = ngt v level') /\ (level = level' /\ NoDup levels -> T = T')).
  { destruct (Nat.eq_dec i j) as [->|D].
    - rewrite Hj in Hi. injection Hi as <-. rewrite HjN in HiN. injection HiN as <-. destruct (found_good _ _ _ _ _ Ff Sh Bd Hf) as (T & M & G & _). destruct (G e IN) as (c & Eo & Gc). destruct (G e' IN') as (c' & Eo' & Gc'). exists T, T, c, c'. auto 8.
    - destruct (found_good _ _ _ _ _ Ff Sh Bd Hf) as (T & M & G & _). destruct (found_good _ _ _ _ _ Ff Sh Bd' Hf') as (T' & M' & G' & _). destruct (G e IN) as (c & Eo & Gc). destruct (G' e' IN') as (c' & Eo' & Gc'). exists T, T', c, c'. do 6 (split; [assumption|]).
      intros [<- Nd]. exfalso. apply D. apply (proj1 (NoDup_nth_error sel) (selects_NoDup _ _ _ Hs Nd)); [apply nth_error_Some; congruence|congruence]. }
  destruct G as (T & T' & c & c' & Eo & Eo' & Gc & Gc' & M & M' & Same). exists e, e', f, level, level', c, c'. rewrite <- Et. split; [exact Ff|]. split; [exact X|]. split; [exact Y|]. split; [exact X'|]. split; [exact Y'|]. split; [exact L1|]. split; [exact L1'|].
  split; [exact (good_follows _ _ _ _ _ _ Eo Gc)|]. split; [exact (good_follows _ _ _ _ _ _ Eo' Gc')|]. intros [[<- Nd]|Om].
  - rewrite <- (Same (conj eq_refl Nd)) in Gc'. exact (good_nested _ _ _ _ _ _ _ C1 R1 Gc Gc' (fun v Hv => Hv) (fun q Hq0 => Hq0)).
  - assert (Mt : forall v1 v2 (l1 l2 : num) cell, middle_value o f cell v1 -> middle_value o f cell v2 -> (forall v, ngt v l2 = true -> ngt v l1 = true) -> ngt v2 l2 = true -> ngt v1 l1 = true).
    { intros v1 v2 l1 l2 cell A1 A2 A3 A4. rewrite (Om cell v1 v2 l1 A1 A2). apply A3, A4. }
    destruct (levels_compare level level') as [Lv|Lv].
    + apply (good_nested _ _ _ _ _ _ _ C1 R1 Gc Gc' Lv). intros cell Hc. destruct (M cell) as (v1 & A1 & ->). destruct (M' cell) as (v2 & A2 & E2). rewrite E2 in Hc. exact (Mt _ _ _ _ _ A1 A2 Lv Hc).
    + destruct (good_nested f level' level T' T c' c C1 R1 Gc' Gc Lv) as [Q|[Q|Q]]; [|right; left; exact Q|left; exact Q|right; right; intros p Ip [U V]; exact (Q p Ip (conj V U))].
      intros cell Hc. destruct (M' cell) as (v1 & A1 & ->). destruct (M cell) as (v2 & A2 & E2). rewrite E2 in Hc. exact (Mt _ _ _ _ _ A1 A2 Lv Hc).
Qed.
Print Assumptions C132_eddies_of_a_step_are_nested_or_apart.

(** *** C133: a step has at most as many eddies per level as the grid has points that are not on its border *)
Theorem C133_number_of_eddies_of_a_step : forall o hav t0 tf levels sel nt st files R st' ny nx, query_ok hav (t_query o) -> five_fitted o -> process st -> closed_levels o t0 tf levels -> selects (fun x => ~ zero x) levels sel ->
  (forall t f, In t (run_steps o t0 tf) -> field_at o t f -> width f = nx /\ height f = ny) -> tracking o t0 tf (Some levels) nt true st = ((files, Ok R), st') ->
  forall t ids, NoDup ids -> (forall i, In i ids -> exists r, In r (rows R) /\ r_time r = t /\ r_id r = i) -> Z.of_nat (length ids) <= Z.of_nat (length sel) * (Z.max 0 (nx - 2) * Z.max 0 (ny - 2)).
Proof.
  intros o hav t0 tf levels sel nt st files R st' ny nx Hq H5 Hp Hb Hs Sz H t ids Nd Hi. destruct ids as [|i0 ids]; [cbn; nia|]. destruct (rows_found _ _ _ _ _ _ _ _ _ _ Hq H5 Hp H) as (sel' & Hs' & K). rewrite (selects_unique _ _ _ _ Hs' Hs) in K. clear sel' Hs'.
  destruct (K t) as (Ht & found & B & _ & L); [right; destruct (Hi i0 (or_introl eq_refl)) as (r & A & E & _); eauto|]. specialize (L _ Nd Hi). enough (Z.of_nat (length (List.concat found)) <= Z.of_nat (length sel) * (Z.max 0 (nx - 2) * Z.max 0 (ny - 2))) by lia. clear L K Nd Hi.
  assert (Hh : forall level, In level sel -> exists f, field_at o t f /\ one_shape o f /\ border_on_one_side f level) by (intros level Hl; destruct (selects_In _ _ _ _ Hs Hl); apply Hb; assumption). clear - B Hh Sz Ht.
  induction B as [|l N ls NS HN _ IH]; [cbn; lia|]. cbn [List.concat length]. rewrite app_length. destruct (Hh l (or_introl eq_refl)) as (f & Hf & Sh & Bd). destruct (found_good _ _ _ _ _ Hf Sh Bd HN) as (_ & _ & _ & LN). destruct (Sz t f Ht Hf) as [E1 E2]. rewrite E1, E2 in LN.
  specialize (IH (fun x Hx => Hh x (or_intror Hx))). rewrite Nat2Z.inj_add, Nat2Z.inj_succ. nia.
Qed.
Print Assumptions C133_number_of_eddies_of_a_step.

(** *** The hypotheses are met: the run of C115_case; its arithmetic is exact, so the order does not matter *)
Definition number_of (x : num) : Q := match x with Num a => a | NaN => 0%Q end.
Fixpoint total (l : list num) : Q := match l with [] => 0%Q | x :: l => (number_of x + total l)%Q end.
Lemma total_permuted l l' : Permutation l l' -> (total l == total l')%Q.
Proof. induction 1 as [|x l l' _ IH|x y l|l l1 l' _ IH _ IH']; cbn [total]; [reflexivity|rewrite IH; reflexivity|ring|rewrite IH; exact IH']. Qed.
Lemma ex_mean a b c d : let v := f_div ex_flops (f_add ex_flops (f_add ex_flops (f_add ex_flops a b) c) d) (f_cst ex_flops 4) in
  (In NaN [a; b; c; d] /\ v = NaN) \/ (~ In NaN [a; b; c; d] /\ exists q, v = Num q /\ (q == total [a; b; c; d] / 4)%Q).
Proof.
  cbn [ex_flops f_div f_add f_cst]. unfold rlift2, reduced, lift2. destruct a as [|a], b as [|b], c as [|c], d as [|d]; cbn [In]; try (left; split; [tauto|reflexivity]).
  right. split; [intros H; repeat destruct H as [H|H]; discriminate H || destruct H|]. eexists. split; [reflexivity|]. cbn [total number_of]. rewrite !Qred_correct. field.
Qed.
Lemma ex_order d f : order_does_not_matter (ex_tracker d) f.
Proof.
  intros cell v v' level (a & b & c & e & P & ->) (a' & b' & c' & e' & P' & ->). change (t_flops (ex_tracker d)) with ex_flops. pose proof (perm_trans P (Permutation_sym P')) as Q. clear P P'.
  pose proof (total_permuted _ _ Q) as S. destruct (ex_mean a b c e) as [[I1 E1]|[I1 (q & E1 & V1)]], (ex_mean a' b' c' e') as [[I2 E2]|[I2 (q' & E2 & V2)]]; rewrite E1, E2.
  - reflexivity.
  - exfalso. apply I2. exact (Permutation_in _ Q I1).
  - exfalso. apply I1. exact (Permutation_in _ (Permutation_sym Q) I2).
  - apply eq_true_iff_eq. rewrite !ngt_true. assert (K : (q == q')%Q) by (rewrite V1, V2, S; reflexivity). split; intros (x & y & X & -> & L); injection X as <-; eexists _, y; (split; [reflexivity|]; split; [reflexivity|]); [rewrite <- K|rewrite K]; exact L.
Qed.
(** Two spots in one field: two eddies, one beside the other *)
Example C131_case : let o := ex_tracker [spots [(3, 3)]; spots [(4, 3); (3, 7)]] in query_ok demo_hav (t_query o) /\ five_fitted o /\ process initial_state /\ closed_levels o 0 (Some 2) [Num 0; Num (1 # 2)] /\
  (forall f, order_does_not_matter o f) /\ NoDup [Num 0; Num (1 # 2)] /\ (forall t f, In t (run_steps o 0 (Some 2)) -> field_at o t f -> width f = 12 /\ height f = 12) /\
  brief (fst (tracking o 0 (Some 2) (Some [Num 0; Num (1 # 2)]) 5 true initial_state)) = Ok (eddy_labels 0 0 ++ eddy_labels 0 1 ++ eddy_labels 1 1)%list.
Proof.
  cbv zeta. split; [exact demo_ok|]. split; [apply ex_five|]. split; [apply started|]. split; [|split; [intro f; apply ex_order|split; [|split; [|vm_compute; reflexivity]]]].
  - intros t level Ht Hl Z0. destruct Hl as [<-|[<-|[]]]; [exfalso; apply Z0; exists 0%Q; split; reflexivity|]. assert (T : t = 0 \/ t = 1) by (destruct Ht as [<-|[<-|[]]]; auto).
    destruct T as [-> | ->]; [exists (spots [(3, 3)])|exists (spots [(4, 3); (3, 7)])]; (split; [eexists; split; [left; split; [lia|reflexivity]|reflexivity]|]); (split; [apply spots_shape|]); apply spots_border; vm_compute; reflexivity.
  - constructor; [intros [E|[]]; discriminate E|constructor; [intros []|constructor]].
  - intros t f Ht Hf. assert (T : t = 0 \/ t = 1) by (destruct Ht as [<-|[<-|[]]]; auto).
    destruct T as [-> | ->]; [rewrite (field_unique (ex_tracker [spots [(3, 3)]; spots [(4, 3); (3, 7)]]) 0 f (spots [(3, 3)]) Hf)|rewrite (field_unique (ex_tracker [spots [(3, 3)]; spots [(4, 3); (3, 7)]]) 1 f (spots [(4, 3); (3, 7)]) Hf)]; try (split; reflexivity); (eexists; split; [left; split; [lia|reflexivity]|reflexivity]).
Qed.

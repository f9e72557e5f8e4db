(** Concrete histories: refutation witnesses and examples for P_Tracking. *)
From Coq Require Import ZifyBool ZifyNat Lqa.
From Verif Require Import M_Base M_Tables S_Tracking L_Base L_Tables L_Track L_Step L_Run L_Run2 L_TrackProps.
Open Scope Z_scope.

(** A snapshot table with one eddy (of one contour point) at each of the given positions, all with radius [rad]. *)
Definition eddy_row (rad : Q) (i : Z) (p : Q * Q) : row :=
  mkRow i 0 0 (mkCols (Num (fst p)) (Num (snd p)) (Num rad) (Num 0) (Num 0) []).
Definition snap (rad : Q) (ps : list (Q * Q)) : frame :=
  set_index (map (fun ip => eddy_row rad (Z.of_nat (fst ip)) (snd ip)) (combine (seq 0 (length ps)) ps)).

Lemma combine_seq_In {A} (ps : list A) : forall s i p, In (i, p) (combine (seq s (length ps)) ps) <-> ((s <= i)%nat /\ nth_error ps (i - s) = Some p).
Proof.
  induction ps as [|q ps IH]; intros s i p; cbn.
  - split; [intros []|intros [_ H]; destruct (i - s)%nat; discriminate].
  - rewrite IH. split.
    + intros [E|[H1 H2]]; [injection E as -> ->; split; [lia|rewrite Nat.sub_diag; reflexivity]|].
      split; [lia|]. replace (i - s)%nat with (S (i - S s)) by lia. exact H2.
    + intros [H1 H2]. destruct (Nat.eq_dec i s) as [->|].
      * rewrite Nat.sub_diag in H2. cbn in H2. left. congruence.
      * right. split; [lia|]. replace (i - s)%nat with (S (i - S s)) in H2 by lia. exact H2.
Qed.
Lemma snap_In rad ps r : In r (rows (snap rad ps)) <-> exists i p, nth_error ps i = Some p /\ r = eddy_row rad (Z.of_nat i) p.
Proof.
  cbn [snap set_index rows]. rewrite in_map_iff. split.
  - intros ((i & p) & <- & H). apply combine_seq_In in H. rewrite Nat.sub_0_r in H. cbn. exists i, p. tauto.
  - intros (i & p & H & ->). exists (i, p). split; [reflexivity|]. apply combine_seq_In. rewrite Nat.sub_0_r. split; [lia|exact H].
Qed.
Lemma snap_ok rad ps : snapshot_ok (snap rad ps).
Proof.
  split; [|split; [|split]].
  - exists (length ps). intro i. split.
    + intros (r & Hr & <-). apply snap_In in Hr. destruct Hr as (j & p & H & ->). cbn.
      assert (j < length ps)%nat by (apply nth_error_Some; congruence). lia.
    + intro H. destruct (nth_error ps (Z.to_nat i)) as [p|] eqn:E; [|apply nth_error_None in E; lia].
      exists (eddy_row rad i p). split; [|reflexivity]. apply snap_In. exists (Z.to_nat i), p. split; [exact E|]. f_equal. lia.
  - intros r Hr. exists r. split; [exact Hr|]. apply snap_In in Hr. destruct Hr as (j & p & H & ->). auto.
  - intros r Hr _. apply snap_In in Hr. destruct Hr as (j & p & H & ->). exists (fst p), (snd p). split; reflexivity.
  - intros r r' Hr Hr'. apply snap_In in Hr. apply snap_In in Hr'. destruct Hr as (j & p & H & ->). destruct Hr' as (j' & p' & H' & ->). reflexivity.
Qed.
Lemma snap_distinct rad ps : distinct_eddies (snap rad ps).
Proof.
  exists (length ps). cbn [snap set_index rows]. rewrite filter_map_comm. cbn [eddy_row r_idx].
  rewrite map_map. cbn [eddy_row r_id].
  generalize 0%nat as s. induction ps as [|p ps IH]; intro s; [reflexivity|]. cbn. f_equal. apply IH.
Qed.

(** First nearest point: an implementation of the nearest-neighbour oracle for any distance. *)
Fixpoint argmin (hav : Q * Q -> Q * Q -> Q) (n : Q * Q) (P : list (Q * Q)) (i : nat) (best : Q * nat) : Q * nat :=
  match P with
  | [] => best
  | p :: P' => argmin hav n P' (S i) (if Qle_bool (fst best) (hav n p) then best else (hav n p, i))
  end.
Definition nearest_query (hav : Q * Q -> Q * Q -> Q) (P N : list (Q * Q)) : list (Q * nat) :=
  match P with [] => [] | p0 :: P' => map (fun n => argmin hav n P' 1 (hav n p0, 0%nat)) N end.

Lemma argmin_ok hav n P0 : forall P i best,
  (exists p, nth_error P0 (snd best) = Some p /\ fst best = hav n p) ->
  (forall j p, (j < i)%nat -> nth_error P0 j = Some p -> (fst best <= hav n p)%Q) ->
  (forall j p, nth_error P j = Some p -> nth_error P0 (i + j) = Some p) -> length P0 = (i + length P)%nat ->
  exists p, nth_error P0 (snd (argmin hav n P i best)) = Some p /\ fst (argmin hav n P i best) = hav n p /\
    forall p', In p' P0 -> (hav n p <= hav n p')%Q.
Proof.
  induction P as [|p P IH]; intros i best (q & Hq & Hb) Hmin Hnth Hlen.
  - cbn. exists q. repeat split; try assumption. intros p' Hp'. apply In_nth_error in Hp'. destruct Hp' as (j & Hj).
    rewrite <- Hb. apply (Hmin j); [|exact Hj]. assert (j < length P0)%nat by (apply nth_error_Some; congruence). cbn in Hlen. lia.
  - cbn. assert (Hp : nth_error P0 i = Some p) by (specialize (Hnth 0%nat p eq_refl); rewrite Nat.add_0_r in Hnth; exact Hnth).
    apply IH.
    + destruct (Qle_bool (fst best) (hav n p)); cbn; eauto.
    + intros j p' Hj Hp'. destruct (Qle_bool (fst best) (hav n p)) eqn:E.
      * destruct (Nat.eq_dec j i) as [->|]; [|apply (Hmin j); [lia|exact Hp']].
        rewrite Hp in Hp'. injection Hp' as <-. apply Qle_bool_iff. exact E.
      * cbn. destruct (Nat.eq_dec j i) as [->|].
        -- rewrite Hp in Hp'. injection Hp' as <-. apply Qle_refl.
        -- apply Qle_trans with (fst best); [|apply (Hmin j); [lia|exact Hp']].
           apply Qlt_le_weak. apply Qnot_le_lt. intro H. apply Qle_bool_iff in H. congruence.
    + intros j p' Hj. replace (S i + j)%nat with (i + S j)%nat by lia. apply Hnth. exact Hj.
    + cbn in Hlen. lia.
Qed.
Lemma nearest_query_ok hav : query_ok hav (nearest_query hav).
Proof.
  intros P N HP. destruct P as [|p0 P]; [congruence|]. cbn. split; [apply map_length|].
  intros i n Hn. rewrite nth_error_map, Hn. cbn.
  destruct (argmin_ok hav n (p0 :: P) P 1 (hav n p0, 0%nat)) as (p & H1 & H2 & H3).
  - exists p0. split; reflexivity.
  - intros j p Hj Hp. assert (j = 0%nat) by lia. subst j. cbn in Hp. injection Hp as <-. apply Qle_refl.
  - intros j p Hj. exact Hj.
  - reflexivity.
  - exists (fst (argmin hav n P 1 (hav n p0, 0%nat))), (snd (argmin hav n P 1 (hav n p0, 0%nat))), p.
    split; [destruct (argmin _ _ _ _ _); reflexivity|]. split; [exact H1|]. split; [rewrite H2; reflexivity|exact H3].
Qed.

Section Wit.
Variable hav : Q * Q -> Q * Q -> Q.
Variable query : list (Q * Q) -> list (Q * Q) -> list (Q * nat).
Hypothesis Hq : query_ok hav query.
Variable keep : bool.
Variable fmt : string.
Variable len : Z.

Lemma snap_fun_ok rad (d : Z -> list (Q * Q)) a b : snapshots_ok (fun t => Ok (snap rad (d t))) a b.
Proof. intros t _. eexists. split; [reflexivity|apply snap_ok]. Qed.
Lemma snap_eddies rad (d : Z -> list (Q * Q)) t : eddies_at (fun t => Ok (snap rad (d t))) t <-> d t <> [].
Proof.
  unfold eddies_at. split.
  - intros (f & E & H) Hd. injection E as <-. rewrite Hd in H. apply H. reflexivity.
  - intro H. eexists. split; [reflexivity|]. destruct (d t); [congruence|discriminate].
Qed.

(** C06: two new eddies that both reach the only known track. *)
Definition split_history (a b c : Q * Q) (t : Z) : list (Q * Q) := if t =? 0 then [a] else [b; c].
Definition split_radius (a b c : Q * Q) : Q := (Qabs (hav b a) + Qabs (hav c a)) * 6371 + 1.

Lemma perm_In {A} (l l' : list A) x : Permutation l l' -> In x l' -> In x l.
Proof. intros H. apply Permutation_in. symmetry. exact H. Qed.

Lemma first_step rad (d : Z -> list (Q * Q)) nt : d 0 <> [] ->
  exists T, returns (time_tracking query keep (fun t => Ok (snap rad (d t))) true fmt len 0 (Some 1) nt) T /\
    Permutation (rows T) (rows (snap rad (d 0))).
Proof.
  intro H. unfold returns, time_tracking, tt_times. cbn [zrange Z.eqb Z.to_nat Pos.to_nat Z.sub Z.add Z.opp Z.pos_sub].
  change (zrange 0 1) with [0]. cbn [tt_loop]. assert (empty (snap rad (d 0)) = false) as ->.
  { apply empty_false. destruct (d 0); [congruence|discriminate]. }
  cbn [empty empty_frame rows snd]. eexists. split; [reflexivity|]. cbn [set_index rows stamp].
  rewrite isort_perm. rewrite (map_ext_in (set_time 0) (fun r => r)).
  - rewrite map_id. reflexivity.
  - intros r Hr. apply (snap_In rad (d 0)) in Hr. destruct Hr as (i & p & _ & ->). reflexivity.
Qed.

Lemma C06_witness a b c nt : 1 <= nt ->
  exists R, returns (time_tracking query keep (fun t => Ok (snap (split_radius a b c) (split_history a b c t))) true fmt len 0 (Some 2) nt) R /\
   In (with_id (at_time 1 (eddy_row (split_radius a b c) 0 b)) 0) (rows R) /\
   In (with_id (at_time 1 (eddy_row (split_radius a b c) 1 c)) 0) (rows R).
Proof.
  intro Hnt. set (rad := split_radius a b c). set (d := split_history a b c).
  destruct (proj2 (success_iff hav query Hq keep (fun t => Ok (snap rad (d t))) fmt len 0 2 nt ltac:(lia) ltac:(lia) Hnt (snap_fun_ok rad d 0 2))) as (R & HR).
  { right. split; [reflexivity|]. exists 2. intros t Ht. rewrite snap_eddies. split; [lia|]. intros _. unfold d, split_history.
    destruct (t =? 0); discriminate. }
  exists R. split; [exact HR|].
  destruct (first_step rad d nt) as (T & HT & HpT); [discriminate|].
  assert (HTne : rows T <> []) by (intro E; rewrite E in HpT; apply Permutation_nil in HpT; discriminate).
  destruct (C05_lemma hav query Hq keep (fun t => Ok (snap rad (d t))) fmt len 0 1 nt T R (snap rad (d 1))) as (n & pos & g & Hc & Hpos & Hp & Hl & _);
    try assumption; try lia; [apply snap_fun_ok|reflexivity|discriminate|apply snap_distinct|].
  assert (Hr0 : forall r, In r (rows T) -> r = eddy_row rad 0 a).
  { intros r Hr. apply (Permutation_in _ HpT) in Hr. destruct Hr as [<-|[]]. reflexivity. }
  assert (Hn : n = 1%nat).
  { destruct (proj1 (Hc 0)) as [_ Hn0].
    - exists (eddy_row rad 0 a). split; [|reflexivity]. apply (perm_In _ _ _ HpT). left. reflexivity.
    - destruct (Nat.eq_dec n 1) as [|Hn1]; [assumption|]. destruct (proj2 (Hc 1)) as (r & Hr & Hid); [lia|].
      rewrite (Hr0 r Hr) in Hid. discriminate. }
  subst n.
  assert (Hpa : pos 0 = a).
  { destruct (Hpos 0 ltac:(lia)) as (r & Hr & _ & _ & Hy & Hx & _). rewrite (Hr0 r Hr) in Hy, Hx. cbn in Hy, Hx.
    destruct (pos 0), a. cbn in *. congruence. }
  assert (Hr : forall i p, nth_error [b; c] i = Some p -> g (Z.of_nat i) = 0).
  { intros i p Hip.
    assert (Hin : In (eddy_row rad (Z.of_nat i) p) (rows (snap rad (d 1)))) by (apply snap_In; exists i, p; split; [exact Hip|reflexivity]).
    destruct (Hl (eddy_row rad (Z.of_nat i) p) p rad Hin eq_refl ltac:(split; reflexivity) eq_refl) as [(k & Hk & Hgk & _)|[_ Hno]].
    - cbn in Hgk. lia.
    - exfalso. apply (Hno 0 ltac:(lia)). rewrite Hpa. unfold reaches, rad, split_radius.
      assert (Hi1 : i = 0%nat \/ i = 1%nat) by (assert (i < 2)%nat by (apply (proj1 (nth_error_Some [b; c] i)); congruence); lia).
      assert (Hb1 := Qle_Qabs (hav b a)). assert (Hb2 := Qle_Qabs (hav c a)).
      assert (Hb3 := Qabs_nonneg (hav b a)). assert (Hb4 := Qabs_nonneg (hav c a)).
      destruct Hi1 as [-> | ->]; cbn in Hip; injection Hip as <-; lra. }
  split; apply (perm_In _ _ _ Hp); apply in_or_app; right; apply in_map_iff.
  - exists (eddy_row rad 0 b). split; [|left; reflexivity]. cbn [eddy_row r_id].
    change (g 0) with (g (Z.of_nat 0)). rewrite (Hr 0%nat b eq_refl). reflexivity.
  - exists (eddy_row rad 1 c). split; [|right; left; reflexivity]. cbn [eddy_row r_id].
    change (g 1) with (g (Z.of_nat 1)). rewrite (Hr 1%nat c eq_refl). reflexivity.
Qed.

(** C07: eddy a disappears after time 0 and is resumed after [gap] steps. *)
Definition gap_history (a b : Q * Q) (gap : Z) (t : Z) : list (Q * Q) :=
  if (t =? 0) || (t =? gap + 1) then [a; b] else [b].
Definition gap_radius (a b : Q * Q) : Q := (Qabs (hav a a) + Qabs (hav b b)) * 6371 + 1.

Section Gap.
Variables (a b : Q * Q) (gap nt : Z).
Hypothesis Hgap : 0 <= gap.
Hypothesis Hnt : 1 <= nt.
Hypothesis Ha : (hav a a < hav a b)%Q.
Hypothesis Hb : (hav b b < hav b a)%Q.
Let rad := gap_radius a b.
Let d := gap_history a b gap.
Notation det := (fun t => Ok (snap rad (d t))).

Lemma gap_ne t : d t <> [].
Proof. unfold d, gap_history. destruct (_ || _); discriminate. Qed.
Lemma gap_returns n : 1 <= n -> exists R, returns (time_tracking query keep det true fmt len 0 (Some n) nt) R.
Proof.
  intro Hn. apply (success_iff hav query Hq keep det fmt len 0 n nt); try lia; [apply snap_fun_ok|].
  right. split; [reflexivity|]. exists n. intros t Ht. rewrite snap_eddies. split; [lia|]. intros _. apply gap_ne.
Qed.

(** where an eddy goes when tracks 0 and 1 are at a and b *)
Lemma gap_link T R t : 1 <= t ->
  returns (time_tracking query keep det true fmt len 0 (Some t) nt) T ->
  returns (time_tracking query keep det true fmt len 0 (Some (t + 1)) nt) R ->
  (exists r, In r (rows T) /\ r_id r = 0) -> (exists r, In r (rows T) /\ r_id r = 1) ->
  (forall r, In r (rows T) -> (r_id r = 0 /\ position_of r a) \/ (r_id r = 1 /\ position_of r b)) ->
  exists g, Permutation (rows R) (rows T ++ map (fun r => with_id (at_time t r) (g (r_id r))) (rows (snap rad (d t)))) /\
    forall r, In r (rows (snap rad (d t))) -> (position_of r a -> g (r_id r) = 0) /\ (position_of r b -> g (r_id r) = 1).
Proof.
  intros Ht HT HR (r0 & Hr0 & Hid0) (r1 & Hr1 & Hid1) Hall.
  assert (HTne : rows T <> []) by (intro E; rewrite E in Hr0; destruct Hr0).
  destruct (C05_lemma hav query Hq keep det fmt len 0 t nt T R (snap rad (d t))) as (n & pos & g & Hc & Hpos & Hp & Hl & _);
    try assumption; try lia; [apply snap_fun_ok|reflexivity| |apply snap_distinct|].
  { destruct (d t) eqn:E; [exfalso; apply (gap_ne t E)|discriminate]. }
  assert (Hn : n = 2%nat).
  { destruct (proj1 (Hc 1)) as [_ Hn1]; [eauto|].
    destruct (Nat.eq_dec n 2) as [|Hn2]; [assumption|]. destruct (proj2 (Hc 2)) as (r & Hr & Hid); [lia|].
    destruct (Hall r Hr) as [[E _]|[E _]]; congruence. }
  subst n.
  assert (Hp0 : pos 0 = a).
  { destruct (Hpos 0 ltac:(lia)) as (r & Hr & Hid & _ & Hy & Hx & _). destruct (Hall r Hr) as [[_ [E1 E2]]|[E _]]; [|congruence].
    destruct (pos 0), a. cbn in *. congruence. }
  assert (Hp1 : pos 1 = b).
  { destruct (Hpos 1 ltac:(lia)) as (r & Hr & Hid & _ & Hy & Hx & _). destruct (Hall r Hr) as [[E _]|[_ [E1 E2]]]; [congruence|].
    destruct (pos 1), b. cbn in *. congruence. }
  exists g. split; [exact Hp|]. intros r Hr.
  assert (Hf : r_idx r = 0 /\ radius_eddy (r_cols r) = Num rad) by (apply snap_In in Hr; destruct Hr as (i & p & _ & ->); auto).
  destruct Hf as [Hf1 Hf2].
  assert (Hq1 := Qle_Qabs (hav a a)). assert (Hq2 := Qle_Qabs (hav b b)).
  assert (Hq3 := Qabs_nonneg (hav a a)). assert (Hq4 := Qabs_nonneg (hav b b)).
  split; intro Hpr; destruct (Hl r _ rad Hr Hf1 Hpr Hf2) as [(k & Hk & Hgk & _ & Hmin)|[_ Hno]].
  - rewrite Hgk. destruct (Z.eq_dec k 0); [assumption|]. assert (E : k = 1) by lia. rewrite E in Hmin.
    specialize (Hmin 0 ltac:(lia)). rewrite Hp0, Hp1 in Hmin. lra.
  - exfalso. apply (Hno 0 ltac:(lia)). rewrite Hp0. unfold reaches, rad, gap_radius. lra.
  - rewrite Hgk. destruct (Z.eq_dec k 1); [assumption|]. assert (E : k = 0) by lia. rewrite E in Hmin.
    specialize (Hmin 1 ltac:(lia)). rewrite Hp0, Hp1 in Hmin. lra.
  - exfalso. apply (Hno 1 ltac:(lia)). rewrite Hp1. unfold reaches, rad, gap_radius. lra.
Qed.

Lemma gap_inv n : forall T, Z.of_nat n <= gap -> returns (time_tracking query keep det true fmt len 0 (Some (Z.of_nat n + 1)) nt) T ->
  (exists r, In r (rows T) /\ r_id r = 0 /\ r_time r = 0) /\ (exists r, In r (rows T) /\ r_id r = 1) /\
  (forall r, In r (rows T) -> (r_id r = 0 /\ position_of r a /\ r_time r = 0) \/ (r_id r = 1 /\ position_of r b)).
Proof.
  induction n as [|n IH]; intros T Hn HT.
  - destruct (first_step rad d nt (gap_ne 0)) as (T' & HT' & Hp). cbn in HT. unfold returns in HT, HT'.
    cbn in HT, HT'. rewrite HT in HT'. injection HT' as <-.
    split; [|split].
    + exists (eddy_row rad 0 a). split; [apply (perm_In _ _ _ Hp); left; reflexivity|split; reflexivity].
    + exists (eddy_row rad 1 b). split; [apply (perm_In _ _ _ Hp); right; left; reflexivity|reflexivity].
    + intros r Hr. apply (Permutation_in _ Hp) in Hr. destruct Hr as [<-|[<-|[]]]; [left|right]; repeat split.
  - destruct (gap_returns (Z.of_nat n + 1)) as (T0 & HT0); [lia|].
    destruct (IH T0 ltac:(lia) HT0) as (H0 & H1 & Hall).
    destruct (gap_link T0 T (Z.of_nat n + 1)) as (g & Hp & Hg).
    + lia.
    + exact HT0.
    + replace (Z.of_nat n + 1 + 1) with (Z.of_nat (S n) + 1) by lia. exact HT.
    + destruct H0 as (r & A & B & _). eauto.
    + exact H1.
    + intros r Hr. destruct (Hall r Hr) as [(A & B & _)|(A & B)]; [left|right]; auto.
    + split; [|split].
      * destruct H0 as (r & A & B). exists r. split; [|exact B]. apply (perm_In _ _ _ Hp), in_or_app. left. exact A.
      * destruct H1 as (r & A & B). exists r. split; [|exact B]. apply (perm_In _ _ _ Hp), in_or_app. left. exact A.
      * intros r Hr. apply (Permutation_in _ Hp), in_app_or in Hr. destruct Hr as [Hr|Hr]; [apply Hall; exact Hr|].
        apply in_map_iff in Hr. destruct Hr as (r' & <- & Hr').
        assert (Hd : d (Z.of_nat n + 1) = [b]).
        { unfold d, gap_history. destruct (Z.of_nat n + 1 =? 0) eqn:E1; [lia|]. destruct (Z.of_nat n + 1 =? gap + 1) eqn:E2; [lia|]. reflexivity. }
        destruct (Hg r' Hr') as [_ Hgb]. assert (Hpb : position_of r' b).
        { rewrite Hd in Hr'. destruct Hr' as [<-|[]]. split; reflexivity. }
        right. cbn. split; [apply Hgb; exact Hpb|exact Hpb].
Qed.

Lemma C07_witness : exists R,
  returns (time_tracking query keep det true fmt len 0 (Some (gap + 2)) nt) R /\
  (exists r, In r (rows R) /\ r_id r = 0 /\ r_time r = 0) /\
  (exists r, In r (rows R) /\ r_id r = 0 /\ r_time r = gap + 1) /\
  (forall r, In r (rows R) -> r_id r = 0 -> ~ 0 < r_time r < gap + 1).
Proof.
  destruct (gap_returns (gap + 1)) as (T & HT); [lia|]. destruct (gap_returns (gap + 1 + 1)) as (R & HR); [lia|].
  destruct (gap_inv (Z.to_nat gap) T) as (H0 & H1 & Hall); [lia|rewrite Z2Nat.id by lia; exact HT|].
  destruct (gap_link T R (gap + 1)) as (g & Hp & Hg); [lia|exact HT|exact HR| |exact H1| |].
  { destruct H0 as (r & A & B & _). eauto. }
  { intros r Hr. destruct (Hall r Hr) as [(A & B & _)|(A & B)]; [left|right]; auto. }
  assert (Hd : d (gap + 1) = [a; b]).
  { unfold d, gap_history. rewrite Z.eqb_refl, orb_true_r. reflexivity. }
  exists R. split; [replace (gap + 2) with (gap + 1 + 1) by lia; exact HR|].
  split; [|split].
  - destruct H0 as (r & A & B). exists r. split; [|exact B]. apply (perm_In _ _ _ Hp), in_or_app. left. exact A.
  - exists (with_id (at_time (gap + 1) (eddy_row rad 0 a)) 0). split; [|split; reflexivity].
    apply (perm_In _ _ _ Hp), in_or_app. right. apply in_map_iff. exists (eddy_row rad 0 a).
    assert (Hin : In (eddy_row rad 0 a) (rows (snap rad (d (gap + 1))))) by (rewrite Hd; left; reflexivity).
    split; [|exact Hin]. f_equal. destruct (Hg _ Hin) as [Hga _]. apply Hga. split; reflexivity.
  - intros r Hr Hid Ht. apply (Permutation_in _ Hp), in_app_or in Hr. destruct Hr as [Hr|Hr].
    + destruct (Hall r Hr) as [(_ & _ & E)|(E & _)]; lia.
    + apply in_map_iff in Hr. destruct Hr as (r' & <- & _). cbn in Ht. lia.
Qed.
End Gap.

(** one eddy (at p) at each of the steps where [on] holds *)
Definition blink (p : Q * Q) (on : Z -> bool) (t : Z) : res frame := Ok (snap 1 (if on t then [p] else [])).
Lemma blink_ok p on x y : snapshots_ok (blink p on) x y.
Proof. apply (snap_fun_ok 1 (fun t => if on t then [p] else [])). Qed.
Lemma blink_at p on t : eddies_at (blink p on) t <-> on t = true.
Proof.
  unfold blink. rewrite (snap_eddies 1 (fun t => if on t then [p] else [])).
  destruct (on t); split; congruence.
Qed.
End Wit.

(** success needs an uninterrupted prefix *)
Section Fail.
Variable hav : Q * Q -> Q * Q -> Q.
Variable query : list (Q * Q) -> list (Q * Q) -> list (Q * nat).
Hypothesis Hq : query_ok hav query.
Variables (keep : bool) (detect : Z -> res frame) (fmt : string) (len : Z).

Lemma gap_fails t0 tf nt s w t R : 0 <= t0 -> t0 <= s -> s < w < t -> t < tf -> 1 <= nt -> snapshots_ok detect t0 tf ->
  eddies_at detect s -> eddies_at detect t -> ~ eddies_at detect w ->
  ~ returns (time_tracking query keep detect true fmt len t0 (Some tf) nt) R.
Proof.
  intros H0 Hs Hw Ht Hnt Hok Es Et Ew HR.
  destruct (proj1 (success_iff hav query Hq keep detect fmt len t0 tf nt ltac:(lia) ltac:(lia) Hnt Hok) (ex_intro _ R HR)) as [H|(-> & m & Hm)].
  - apply (H s t); auto; lia.
  - apply Ew. apply Hm; [lia|]. apply Hm in Et; lia.
Qed.
Lemma late_start_fails t0 tf nt s t R : 0 < t0 -> t0 <= s < t -> t < tf -> 1 <= nt -> snapshots_ok detect t0 tf ->
  eddies_at detect s -> eddies_at detect t ->
  ~ returns (time_tracking query keep detect true fmt len t0 (Some tf) nt) R.
Proof.
  intros H0 Hs Ht Hnt Hok Es Et HR.
  destruct (proj1 (success_iff hav query Hq keep detect fmt len t0 tf nt ltac:(lia) ltac:(lia) Hnt Hok) (ex_intro _ R HR)) as [H|(-> & m & Hm)]; [|lia].
  apply (H s t); auto; lia.
Qed.
End Fail.

(** A concrete distance and histories for the examples. *)
Definition demo_hav (p q : Q * Q) : Q := (Qabs (fst p - fst q) + Qabs (snd p - snd q)) / 57.
Definition demo_query := nearest_query demo_hav.
Definition demo_ok : query_ok demo_hav demo_query := nearest_query_ok demo_hav.
(** two eddies drifting east, a third one appearing at t = 2 *)
Definition demo (t : Z) : res frame :=
  Ok (snap 100 ([(0, inject_Z t * (1 # 2)); (10, 50 + inject_Z t * (1 # 2))] ++ (if (t =? 2)%Z then [(40, 7)] else []))%Q).
Lemma demo_ok_all a b : snapshots_ok demo a b.
Proof. intros t _. eexists. split; [reflexivity|apply snap_ok]. Qed.
Definition labels (R : frame) : list (Z * Z) := map (fun r => (r_id r, r_time r)) (rows R).

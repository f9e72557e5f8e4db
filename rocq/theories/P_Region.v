(** C148: regions do not influence each other *)
From Coq Require Import Lia Permutation Sorted.
From Verif Require Import M_Base M_Tables S_Tracking S_Motion S_Region L_Base L_Tables L_Track L_TrackProps L_Motion P_Tracking.
Open Scope Z_scope.

(** *** every run gives names *)
Lemma steps_In t s : In s (steps 0 t) <-> 0 <= s < t.
Proof. unfold steps. rewrite in_map_iff. split; [intros (i & <- & H); apply in_seq in H; lia|]. intro H. exists (Z.to_nat s). split; [lia|apply in_seq; lia]. Qed.
Lemma history_ext detect name name' t : (forall s i, 0 <= s < t -> name s i = name' s i) -> history detect name t = history detect name' t.
Proof.
  intro H. unfold history. rewrite !flat_map_concat_map. f_equal. apply map_ext_in. intros s Hs. apply steps_In in Hs. apply map_ext. intro r. unfold named. rewrite H by exact Hs. reflexivity.
Qed.
Lemma history_In detect name t r : In r (history detect name t) <-> exists s r0, 0 <= s < t /\ In r0 (found detect s) /\ r = named name s r0.
Proof.
  unfold history. rewrite in_flat_map. split.
  - intros (s & Hs & H). apply steps_In in Hs. apply in_map_iff in H as (r0 & <- & H). eauto.
  - intros (s & r0 & Hs & H & ->). exists s. split; [apply steps_In, Hs|apply in_map, H].
Qed.
Definition linked_at (hav : Q * Q -> Q * Q -> Q) (detect : Z -> res frame) (name : Z -> Z -> Z) (t : Z) : Prop :=
  exists (n : nat) (pos : Z -> Q * Q), contiguous (history detect name t) n /\ (forall k, 0 <= k < Z.of_nat n -> latest_position (history detect name t) k (pos k)) /\
    (forall r c rad, In r (found detect t) -> r_idx r = 0 -> position_of r c -> radius_eddy (r_cols r) = Num rad ->
       (exists k, 0 <= k < Z.of_nat n /\ name t (r_id r) = k /\ reaches hav c rad (pos k) /\ forall k', 0 <= k' < Z.of_nat n -> (hav c (pos k) <= hav c (pos k'))%Q)
       \/ (Z.of_nat n <= name t (r_id r) /\ forall k, 0 <= k < Z.of_nat n -> ~ reaches hav c rad (pos k))) /\
    (forall r r', In r (found detect t) -> In r' (found detect t) -> r_id r < r_id r' -> Z.of_nat n <= name t (r_id r) -> Z.of_nat n <= name t (r_id r') -> name t (r_id r) < name t (r_id r')).
Lemma linked_ext hav detect name name' t : 0 <= t -> (forall s i, 0 <= s <= t -> name s i = name' s i) -> linked_at hav detect name t -> linked_at hav detect name' t.
Proof.
  intros Ht H (n & pos & A & B & C & D). rewrite (history_ext detect name name' t) in A, B by (intros; apply H; lia). exists n, pos. split; [exact A|]. split; [exact B|].
  assert (E : forall i, name t i = name' t i) by (intro i; apply H; lia). split; intros; rewrite <- ?E in *; eauto.
Qed.
Lemma names_exist hav query keep detect fmt len nt tf : query_ok hav query -> 1 <= nt -> snapshots_ok detect 0 tf ->
  (forall t f, 0 <= t < tf -> detect t = Ok f -> rows f <> [] /\ distinct_eddies f) ->
  forall m, (0 < m)%nat -> Z.of_nat m <= tf -> exists name, (forall i, name 0 i = i) /\
    (forall t, 0 < t <= Z.of_nat m -> exists R, returns (time_tracking query keep detect true fmt len 0 (Some t) nt) R /\ Permutation (rows R) (history detect name t)) /\
    forall t, 0 < t < Z.of_nat m -> linked_at hav detect name t.
Proof.
  intros Hq Hnt So Hd.
  assert (Ex : forall t, 0 < t <= tf -> exists R, returns (time_tracking query keep detect true fmt len 0 (Some t) nt) R).
  { intros t Ht. apply (C08_C09_success_condition hav query Hq); [lia|lia|exact Hnt|intros s Hs; apply So; lia|]. right. split; [reflexivity|]. exists t. intros s Hs. split; [intros _; lia|intros _].
    destruct (So s) as (f & Hf & _); [lia|]. exists f. split; [exact Hf|]. apply (Hd s f); [lia|exact Hf]. }
  induction m as [|m IH]; [lia|]. intros _ Hl. destruct m as [|m].
  - exists (fun _ i => i). split; [reflexivity|]. split; [|lia]. intros t Ht. assert (t = 1) by lia. subst t. destruct (Ex 1) as (R & HR); [lia|]. exists R. split; [exact HR|].
    destruct (So 0) as (f & Hf & _); [lia|]. rewrite (one_step_table hav query keep detect fmt len nt f R Hq Hf (proj1 (Hd 0 f ltac:(lia) Hf)) HR).
    unfold history. change (steps 0 1) with [0]. cbn [flat_map]. rewrite app_nil_r. unfold found. rewrite Hf. reflexivity.
  - destruct IH as (name & N0 & NR & NL); [lia|lia|]. replace (Z.of_nat (S (S m))) with (Z.of_nat (S m) + 1) in * by lia. set (t := Z.of_nat (S m)) in *. destruct (So t) as (f & Hf & _); [lia|]. destruct (Hd t f ltac:(lia) Hf) as [Hnf De].
    destruct (NR t) as (T & HT & PT); [lia|]. destruct (Ex (t + 1)) as (R & HR); [lia|].
    assert (HnT : rows T <> []).
    { intro E. rewrite E in PT. apply Permutation_nil in PT. destruct (So 0) as (f0 & Hf0 & _); [lia|]. destruct (Hd 0 f0 ltac:(lia) Hf0) as [Hn0 _]. destruct (rows f0) as [|r l] eqn:E0; [contradiction|].
      assert (X : In (named name 0 r) (history detect name t)). { apply history_In. exists 0, r. split; [lia|]. split; [unfold found; rewrite Hf0, E0; left; reflexivity|reflexivity]. }
      rewrite PT in X. destruct X. }
    destruct (C05_link_iff_nearest_within_radius hav query Hq keep detect fmt len 0 t nt T R f) as (n & pos & g & Cn & Lp & PR & Lk & In_); try assumption; [lia|intros s Hs; apply So; lia|].
    set (name' := fun s i => if s =? t then g i else name s i).
    assert (Old : forall s i, s <> t -> name' s i = name s i) by (intros s i Hs; unfold name'; destruct (Z.eqb_spec s t); [lia|reflexivity]). assert (New : forall i, name' t i = g i) by (intro i; unfold name'; rewrite Z.eqb_refl; reflexivity).
    assert (HX : forall s, s <= t -> history detect name' s = history detect name s) by (intros s Hs; apply history_ext; intros; apply Old; lia).
    assert (Fd : found detect t = rows f) by (unfold found; rewrite Hf; reflexivity).
    exists name'. split; [intro i; rewrite Old by lia; apply N0|]. split.
    + intros s Hs. destruct (Z.eq_dec s (t + 1)) as [->|Ns]; [|rewrite HX by lia; apply NR; lia]. exists R. split; [exact HR|]. rewrite PR, history_next, HX, Fd by lia. apply Permutation_app; [exact PT|]. erewrite map_ext; [reflexivity|]. intro r. unfold named. rewrite New. reflexivity.
    + intros s Hs. destruct (Z.eq_dec s t) as [->|Ns].
      * exists n, pos. rewrite HX by lia. split; [eapply contiguous_perm; eauto|]. split; [intros k Hk; eapply latest_perm; [exact PT|apply Lp, Hk]|]. rewrite Fd. split; intros; rewrite ?New in *; eauto.
      * apply (linked_ext hav detect name name'); [lia|intros s' i Hs'; symmetry; apply Old; lia|apply NL; lia].
Qed.

Section Two.
Variables (hav : Q * Q -> Q * Q -> Q) (detect part : Z -> res frame) (here : Z -> Z -> bool) (num name nameA : Z -> Z -> Z) (tf : Z).
Hypothesis So : snapshots_ok detect 0 tf.
Hypothesis Ho : forall t, 0 <= t < tf -> only_region here num t (found detect t) (found part t).
Hypothesis Hs : separated hav detect here tf.
Hypothesis Hr : forall t r, 0 <= t < tf -> In r (found detect t) -> r_idx r = 0 -> has_radius r.
Hypothesis N0 : forall i, name 0 i = i.
Hypothesis N0A : forall i, nameA 0 i = i.
Hypothesis NL : forall t, 0 < t < tf -> linked_at hav detect name t.
Hypothesis NLA : forall t, 0 < t < tf -> linked_at hav part nameA t.
Hypothesis Hc : forall t r c, 0 < t < tf -> In r (found part t) -> r_idx r = 0 -> position_of r c -> clear_choice hav (history part nameA t) c.

Definition agree (t : Z) : Prop :=
  (forall s s' i j, 0 <= s < t -> 0 <= s' < t -> eddy_at detect s i -> eddy_at detect s' j -> here s i = true -> here s' j = true -> (name s i = name s' j <-> nameA s (num s i) = nameA s' (num s' j))) /\
  (forall s s' i j, 0 <= s < t -> 0 <= s' < t -> eddy_at detect s i -> eddy_at detect s' j -> here s i = true -> here s' j = false -> name s i <> name s' j).

Lemma first_row t i : 0 <= t < tf -> eddy_at detect t i -> exists r c rad, In r (found detect t) /\ r_id r = i /\ r_idx r = 0 /\ position_of r c /\ radius_eddy (r_cols r) = Num rad.
Proof using All.
  intros Ht (r & H & <-). destruct (So t Ht) as (f & Hf & (_ & Fp & Po & _)). unfold found in *. rewrite Hf in *. destruct (Fp r H) as (r0 & H0 & E & _ & I). destruct (Po r0 H0 I) as (y & x & Y & X).
  destruct (Hr t r0 Ht) as (rad & Rad); [unfold found; rewrite Hf; exact H0|exact I|]. exists r0, (y, x), rad. repeat split; assumption.
Qed.
Lemma part_In t r : 0 <= t < tf -> In r (found detect t) -> here t (r_id r) = true -> In (with_id r (num t (r_id r))) (found part t).
Proof using All. intros Ht H E. destruct (Ho t Ht) as [-> _]. apply (in_map (fun r => with_id r (num t (r_id r)))), filter_In. auto. Qed.
Lemma part_from t r : 0 <= t < tf -> In r (found part t) -> exists r0, In r0 (found detect t) /\ here t (r_id r0) = true /\ r = with_id r0 (num t (r_id r0)).
Proof using All. intros Ht H. destruct (Ho t Ht) as [E _]. rewrite E in H. apply in_map_iff in H as (r0 & <- & H). apply filter_In in H as [H X]. eauto. Qed.
(** The latest position of a track of the region is a latest position of the same track when only the region is listed. *)
Lemma same_latest t k p : 0 < t < tf -> agree t -> latest_position (history detect name t) k p ->
  exists s i r, 0 <= s < t /\ In r (found detect s) /\ r_id r = i /\ r_idx r = 0 /\ position_of r p /\ name s i = k /\ (here s i = true -> latest_position (history part nameA t) (nameA s (num s i)) p).
Proof using All.
  intros Ht [Ag _] (x & Hx & Kx & Ix & Yx & Xx & Lx). apply history_In in Hx as (s & r & H1 & H2 & ->). cbn [named with_id at_time r_id r_idx r_cols r_time] in *.
  exists s, (r_id r), r. split; [exact H1|]. split; [exact H2|]. split; [reflexivity|]. split; [exact Ix|]. split; [split; assumption|]. split; [exact Kx|]. intro Hh.
  exists (named nameA s (with_id r (num s (r_id r)))). split; [apply history_In; exists s, (with_id r (num s (r_id r))); split; [exact H1|]; split; [apply part_In; [lia|exact H2|exact Hh]|reflexivity]|]. cbn [named with_id at_time r_id r_idx r_cols r_time].
  split; [reflexivity|]. split; [exact Ix|]. split; [exact Yx|]. split; [exact Xx|]. intros y Hy Ky. apply history_In in Hy as (s' & y0 & H3 & H4 & ->). cbn [named with_id at_time r_id r_time] in *.
  destruct (part_from s' y0 ltac:(lia) H4) as (r' & H5 & H6 & ->). cbn [with_id r_id] in Ky. apply (Lx (named name s' r')); [apply history_In; eauto|]. cbn [named with_id at_time r_id].
  rewrite <- Kx. apply (Ag s' s (r_id r') (r_id r)); [exact H3|exact H1|exists r'; auto|exists r; auto|exact H6|exact Hh|exact Ky].
Qed.
Lemma old_small nm det t n s i : contiguous (history det nm t) n -> 0 <= s < t -> eddy_at det s i -> 0 <= nm s i < Z.of_nat n.
Proof. intros C H (r & A & <-). apply C. exists (named nm s r). split; [apply history_In; eauto|reflexivity]. Qed.
Lemma part_eddy t i : 0 <= t < tf -> eddy_at detect t i -> here t i = true -> eddy_at part t (num t i).
Proof using All. intros Ht (r & A & <-) H. exists (with_id r (num t (r_id r))). split; [apply part_In; assumption|reflexivity]. Qed.

Lemma step_agree t : 0 < t < tf -> agree t -> agree (t + 1).
Proof using All.
  intros Ht Ag. destruct (NL t Ht) as (n & pos & Cn & Lp & Lk & Inc). destruct (NLA t Ht) as (nA & posA & CnA & LpA & LkA & IncA).
  (* the eddies of the region *)
  assert (In_ : forall i, eddy_at detect t i -> here t i = true ->
    (exists s j, 0 <= s < t /\ eddy_at detect s j /\ here s j = true /\ nameA t (num t i) = nameA s (num s j) /\ name t i = name s j) \/ (Z.of_nat n <= name t i /\ Z.of_nat nA <= nameA t (num t i))).
  { intros i Ei Hi. destruct (first_row t i ltac:(lia) Ei) as (r & c & rad & H & <- & I & Pc & Rd). pose proof (part_In t r ltac:(lia) H Hi) as HA.
    assert (CC : clear_choice hav (history part nameA t) c) by (apply (Hc t (with_id r (num t (r_id r)))); assumption).
    assert (TR : forall k', 0 <= k' < Z.of_nat n -> reaches hav c rad (pos k') -> exists s' j', 0 <= s' < t /\ eddy_at detect s' j' /\ here s' j' = true /\ name s' j' = k' /\ latest_position (history part nameA t) (nameA s' (num s' j')) (pos k')).
    { intros k' Hk' Re. destruct (same_latest t k' (pos k') Ht Ag (Lp k' Hk')) as (s' & j' & r' & A1 & A2 & <- & A4 & A5 & A6 & A7).
      destruct (here s' (r_id r')) eqn:E; [|exfalso; apply (Hs s' t r r' c rad (pos k')); try assumption; [lia|rewrite Hi, E; discriminate]]. exists s', (r_id r'). split; [exact A1|]. split; [exists r'; auto|]. split; [exact E|]. split; [exact A6|]. apply A7. reflexivity. }
    destruct (LkA (with_id r (num t (r_id r))) c rad HA I Pc Rd) as [(kA & HkA & EkA & ReA & NearA)|[GeA FarA]]; cbn [with_id r_id] in *.
    - left. assert (K : known (history part nameA t) kA) by (apply CnA; exact HkA). destruct K as (y & Hy & Ky). apply history_In in Hy as (s & y0 & H1 & H2 & ->). destruct (part_from s y0 ltac:(lia) H2) as (r' & H3 & H4 & ->). cbn [named with_id at_time r_id] in Ky.
      assert (Ej : eddy_at detect s (r_id r')) by (exists r'; auto).
      pose proof (old_small name detect t n s (r_id r') Cn H1 Ej) as Hk. set (k := name s (r_id r')) in *.
      assert (PK : pos k = posA kA).
      { destruct (same_latest t k (pos k) Ht Ag (Lp k Hk)) as (s1 & j1 & r1 & B1 & B2 & <- & B4 & B5 & B6 & B7). destruct Ag as [Ag1 Ag2]. assert (E1 : eddy_at detect s1 (r_id r1)) by (exists r1; auto).
        destruct (here s1 (r_id r1)) eqn:E; [|exfalso; apply (Ag2 s s1 (r_id r') (r_id r1)); try assumption; symmetry; exact B6]. specialize (B7 eq_refl).
        assert (nameA s1 (num s1 (r_id r1)) = kA) by (rewrite <- Ky; apply Ag1; assumption). rewrite H0 in B7. apply (CC kA kA); [exact B7|apply LpA, HkA|reflexivity]. }
      destruct (Lk r c rad H I Pc Rd) as [(k' & Hk' & Ek' & Re' & Near')|[_ Far]]; [|exfalso; apply (Far k Hk); rewrite PK; exact ReA].
      destruct (TR k' Hk' Re') as (s' & j' & C1 & C2 & C3 & C4 & C5). pose proof (old_small nameA part t nA s' (num s' j') CnA C1 (part_eddy s' j' ltac:(lia) C2 C3)) as HkA'. set (kA' := nameA s' (num s' j')) in *.
      assert (PK' : posA kA' = pos k') by (apply (CC kA' kA'); [apply LpA, HkA'|exact C5|reflexivity]).
      assert (EQ : kA = kA').
      { destruct (Z.eq_dec kA kA') as [E|E]; [exact E|]. exfalso. apply (proj2 (CC kA kA' (posA kA) (posA kA') (LpA kA HkA) (LpA kA' HkA')) E). apply Qle_antisym; [apply NearA, HkA'|]. rewrite PK', <- PK. apply Near', Hk. }
      exists s', j'. split; [exact C1|]. split; [exact C2|]. split; [exact C3|]. split; [fold kA'; congruence|congruence].
    - right. split; [|exact GeA]. destruct (Lk r c rad H I Pc Rd) as [(k' & Hk' & Ek' & Re' & Near')|[Ge _]]; [|exact Ge]. exfalso.
      destruct (TR k' Hk' Re') as (s' & j' & C1 & C2 & C3 & C4 & C5). pose proof (old_small nameA part t nA s' (num s' j') CnA C1 (part_eddy s' j' ltac:(lia) C2 C3)) as HkA'.
      assert (PK' : posA (nameA s' (num s' j')) = pos k') by (apply (CC (nameA s' (num s' j')) (nameA s' (num s' j'))); [apply LpA, HkA'|exact C5|reflexivity]). apply (FarA _ HkA'). rewrite PK'. exact Re'. }
  (* the others *)
  assert (Out : forall i, eddy_at detect t i -> here t i = false -> (exists s j, 0 <= s < t /\ eddy_at detect s j /\ here s j = false /\ name t i = name s j) \/ Z.of_nat n <= name t i).
  { intros i Ei Hi. destruct (first_row t i ltac:(lia) Ei) as (r & c & rad & H & <- & I & Pc & Rd). destruct (Lk r c rad H I Pc Rd) as [(k' & Hk' & Ek' & Re' & _)|[Ge _]]; [left|right; exact Ge].
    destruct (same_latest t k' (pos k') Ht Ag (Lp k' Hk')) as (s' & j' & r' & A1 & A2 & <- & A4 & A5 & A6 & _). exists s', (r_id r'). split; [exact A1|]. split; [exists r'; auto|]. split; [|congruence].
    destruct (here s' (r_id r')) eqn:E; [|reflexivity]. exfalso. apply (Hs s' t r r' c rad (pos k')); try assumption; [lia|rewrite Hi, E; discriminate]. }
  assert (Fresh : forall i j, eddy_at detect t i -> eddy_at detect t j -> Z.of_nat n <= name t i -> Z.of_nat n <= name t j -> name t i = name t j -> i = j).
  { intros i j (r & A & <-) (r' & B & <-) G G' E. destruct (Z.lt_trichotomy (r_id r) (r_id r')) as [L|[L|L]]; [|exact L|]; [pose proof (Inc r r' A B L G G')|pose proof (Inc r' r B A L G' G)]; lia. }
  assert (FreshA : forall i j, eddy_at part t i -> eddy_at part t j -> Z.of_nat nA <= nameA t i -> Z.of_nat nA <= nameA t j -> nameA t i = nameA t j -> i = j).
  { intros i j (r & A & <-) (r' & B & <-) G G' E. destruct (Z.lt_trichotomy (r_id r) (r_id r')) as [L|[L|L]]; [|exact L|]; [pose proof (IncA r r' A B L G G')|pose proof (IncA r' r B A L G' G)]; lia. }
  destruct Ag as [Ag1 Ag2].
  (* what an eddy of a step up to t is like: the name of an eddy before t, or new *)
  set (old := fun s i => exists s0 j, 0 <= s0 < t /\ eddy_at detect s0 j /\ here s0 j = here s i /\ name s i = name s0 j /\ (here s i = true -> nameA s (num s i) = nameA s0 (num s0 j))).
  set (new := fun s i => s = t /\ Z.of_nat n <= name s i /\ (here s i = true -> Z.of_nat nA <= nameA s (num s i))).
  assert (Cl : forall s i, 0 <= s < t + 1 -> eddy_at detect s i -> old s i \/ new s i).
  { intros s i Hs0 Ei. destruct (Z.eq_dec s t) as [->|N].
    - destruct (here t i) eqn:E.
      + destruct (In_ i Ei E) as [(s0 & j & X1 & X2 & X3 & X4 & X5)|[X1 X2]]; [left; exists s0, j|right]; repeat split; auto; try lia; congruence.
      + destruct (Out i Ei E) as [(s0 & j & X1 & X2 & X3 & X4)|X1]; [left; exists s0, j|right]; (repeat split; auto; try lia; try congruence; intro; congruence).
    - left. exists s, i. repeat split; auto; lia. }
  assert (OldS : forall s i, old s i -> name s i < Z.of_nat n /\ (here s i = true -> nameA s (num s i) < Z.of_nat nA)).
  { intros s i (s0 & j & X1 & X2 & X3 & X4 & X5). split; [rewrite X4; apply (old_small name detect t n s0 j Cn X1 X2)|]. intro E. rewrite (X5 E). apply (old_small nameA part t nA s0 (num s0 j) CnA X1), part_eddy; [lia|exact X2|congruence]. }
  split; intros s s' i j H1 H2 E1 E2 G1 G2; destruct (Cl s i H1 E1) as [O1|W1], (Cl s' j H2 E2) as [O2|W2].
  - destruct O1 as (s0 & i0 & X1 & X2 & X3 & X4 & X5), O2 as (s1 & j0 & Y1 & Y2 & Y3 & Y4 & Y5). rewrite X4, Y4, (X5 G1), (Y5 G2). apply Ag1; auto; congruence.
  - pose proof (OldS _ _ O1) as [Z1 Z2]. destruct W2 as (-> & Z3 & Z4). specialize (Z2 G1). specialize (Z4 G2). split; intro; lia.
  - pose proof (OldS _ _ O2) as [Z1 Z2]. destruct W1 as (-> & Z3 & Z4). specialize (Z2 G2). specialize (Z4 G1). split; intro; lia.
  - destruct W1 as (-> & Z1 & Z2), W2 as (-> & Z3 & Z4). specialize (Z2 G1). specialize (Z4 G2). split; intro E.
    + rewrite (Fresh i j E1 E2 Z1 Z3 E). reflexivity.
    + pose proof (FreshA _ _ (part_eddy t i ltac:(lia) E1 G1) (part_eddy t j ltac:(lia) E2 G2) Z2 Z4 E) as X. destruct E1 as (r & A & <-), E2 as (r' & B & <-). destruct (Ho t ltac:(lia)) as [_ Inj]. rewrite (Inj r r' A B G1 G2 X). reflexivity.
  - destruct O1 as (s0 & i0 & X1 & X2 & X3 & X4 & X5), O2 as (s1 & j0 & Y1 & Y2 & Y3 & Y4 & Y5). rewrite X4, Y4. apply Ag2; auto; congruence.
  - pose proof (OldS _ _ O1) as [Z1 Z2]. destruct W2 as (-> & Z3 & _). lia.
  - pose proof (OldS _ _ O2) as [Z1 Z2]. destruct W1 as (-> & Z3 & _). lia.
  - destruct W1 as (-> & Z1 & _), W2 as (-> & Z3 & _). intro E. pose proof (Fresh i j E1 E2 Z1 Z3 E). congruence.
Qed.
Lemma all_agree : forall m, (0 < m)%nat -> Z.of_nat m <= tf -> agree (Z.of_nat m).
Proof using All.
  induction m as [|m IH]; [lia|]. intros _ Hl. destruct m as [|m].
  - split; intros s s' i j H1 H2 E1 E2 G1 G2; assert (s = 0) by lia; assert (s' = 0) by lia; subst.
    + rewrite !N0, !N0A. split; [congruence|]. intro X. destruct E1 as (r & A & <-), E2 as (r' & B & <-). destruct (Ho 0 ltac:(lia)) as [_ Inj]. apply (Inj r r'); assumption.
    + rewrite !N0. congruence.
  - replace (Z.of_nat (S (S m))) with (Z.of_nat (S m) + 1) by lia. apply step_agree; [lia|]. apply IH; lia.
Qed.
End Two.

(** C148: leaving out the eddies outside a region does not change which eddies of the region share a track, if no eddy on one side of the border has an earlier
    position on the other side within its radius and the eddies of the region are never equally near to two tracks.  [name t i] is the identifier that the run
    gives to the eddy that step t lists under i. *)
Theorem C148_regions : forall hav query, query_ok hav query -> forall keep detect part here num fmt len nt tf,
  1 <= nt -> 0 < tf -> snapshots_ok detect 0 tf -> snapshots_ok part 0 tf ->
  (forall t f, 0 <= t < tf -> detect t = Ok f \/ part t = Ok f -> rows f <> [] /\ distinct_eddies f) ->
  (forall t r, 0 <= t < tf -> In r (found detect t) -> r_idx r = 0 -> has_radius r) ->
  (forall t, 0 <= t < tf -> only_region here num t (found detect t) (found part t)) ->
  separated hav detect here tf ->
  (forall t T r c, 0 < t < tf -> returns (time_tracking query keep part true fmt len 0 (Some t) nt) T -> In r (found part t) -> r_idx r = 0 -> position_of r c -> clear_choice hav (rows T) c) ->
  exists R RA name nameA,
    returns (time_tracking query keep detect true fmt len 0 (Some tf) nt) R /\ Permutation (rows R) (history detect name tf) /\
    returns (time_tracking query keep part true fmt len 0 (Some tf) nt) RA /\ Permutation (rows RA) (history part nameA tf) /\
    forall s t i j, 0 <= s < tf -> 0 <= t < tf -> eddy_at detect s i -> eddy_at detect t j -> here s i = true -> here t j = true ->
      (name s i = name t j <-> nameA s (num s i) = nameA t (num t j)).
Proof.
  intros hav query Hq keep detect part here num fmt len nt tf Hnt Htf So SoA Hd Hr Ho Hs Hc.
  destruct (names_exist hav query keep detect fmt len nt tf Hq Hnt So ltac:(intros; apply (Hd t); auto) (Z.to_nat tf) ltac:(lia) ltac:(lia)) as (name & N0 & NR & NL).
  destruct (names_exist hav query keep part fmt len nt tf Hq Hnt SoA ltac:(intros; apply (Hd t); auto) (Z.to_nat tf) ltac:(lia) ltac:(lia)) as (nameA & N0A & NRA & NLA).
  rewrite Z2Nat.id in * by lia. destruct (NR tf ltac:(lia)) as (R & HR & PR). destruct (NRA tf ltac:(lia)) as (RA & HRA & PRA). exists R, RA, name, nameA. do 4 (split; [assumption|]).
  assert (Ag : agree detect here num name nameA tf).
  { rewrite <- (Z2Nat.id tf) by lia. apply (all_agree hav detect part here num name nameA tf); try assumption; try lia. intros t r c Ht H I P. destruct (NRA t ltac:(lia)) as (T & HT & PT). intros k k' p p' L L'.
    apply (Hc t T r c Ht HT H I P); eapply latest_perm; try (apply Permutation_sym, PT); assumption. }
  intros s t i j H1 H2 E1 E2 G1 G2. apply (proj1 Ag); assumption.
Qed.
Print Assumptions C148_regions.

(** Two drifting eddies and, at step 2, a third one; the region is the sea north of latitude 5, with the second and the third eddy. *)
From Verif Require Import L_Witness.
Definition north (t i : Z) : bool := 1 <=? i.
Definition from_zero (t i : Z) : Z := i - 1.
Definition demo_north (t : Z) : res frame := Ok (snap 100 ((10, 50 + inject_Z t * (1 # 2)) :: (if (t =? 2)%Z then [(40, 7)] else []))%Q).
Example C148_case : query_ok demo_hav demo_query /\ snapshots_ok demo 0 3 /\ snapshots_ok demo_north 0 3 /\
  (forall t f, 0 <= t < 3 -> demo t = Ok f \/ demo_north t = Ok f -> rows f <> [] /\ distinct_eddies f) /\
  (forall t r, 0 <= t < 3 -> In r (found demo t) -> r_idx r = 0 -> has_radius r) /\
  (forall t, 0 <= t < 3 -> only_region north from_zero t (found demo t) (found demo_north t)) /\
  separated demo_hav demo north 3 /\
  (forall t T r c, 0 < t < 3 -> returns (time_tracking demo_query false demo_north true "csv" 3 0 (Some t) 1) T -> In r (found demo_north t) -> r_idx r = 0 -> position_of r c -> clear_choice demo_hav (rows T) c).
Proof.
  assert (T3 : forall t, 0 <= t < 3 -> t = 0 \/ t = 1 \/ t = 2) by lia.
  split; [exact demo_ok|]. split; [apply demo_ok_all|]. split; [intros t _; eexists; split; [reflexivity|apply snap_ok]|].
  split; [|split; [|split; [|split]]].
  - intros t f _ [H|H]; injection H as <-; (split; [discriminate|apply snap_distinct]).
  - intros t r Ht H _. destruct (T3 t Ht) as [->|[->| ->]]; cbn in H; repeat (destruct H as [<-|H]; [eexists; reflexivity|]); destruct H.
  - intros t Ht. destruct (T3 t Ht) as [->|[->| ->]]; (split; [reflexivity|unfold from_zero; intros; lia]).
  - intros s t r r' c rad p Hs Ht H H' _ _ N (Y & X) Rd (Y' & X'). unfold reaches. assert (Tt : t = 1 \/ t = 2) by lia. assert (Ts : s = 0 \/ s = 1) by lia.
    destruct Tt as [->| ->], Ts as [->| ->]; try lia; cbn in H, H'; repeat (destruct H as [<-|H]; [|]); try (destruct H; fail); repeat (destruct H' as [<-|H']; [|]); try (destruct H'; fail); try (exfalso; apply N; reflexivity);
      cbn in Y, X, Y', X', Rd; destruct c as [c1 c2], p as [p1 p2]; cbn in Y, X, Y', X'; injection Y as <-; injection X as <-; injection Y' as <-; injection X' as <-; injection Rd as <-; apply Qle_not_lt; vm_compute; discriminate.
  - intros t T r c Ht HT H _ _. assert (Tt : t = 1 \/ t = 2) by lia.
    assert (L : exists p0, forall k p, latest_position (rows T) k p -> k = 0 /\ p = p0).
    { destruct Tt as [->| ->]; vm_compute in HT; injection HT as <-; cbn [rows].
      - eexists. intros k [p1 p2] (x & Hx & Kx & _ & Yx & Xx & _). destruct Hx as [<-|[]]. cbn in Kx, Yx, Xx. injection Yx as <-. injection Xx as <-. split; [symmetry; exact Kx|reflexivity].
      - eexists. intros k [p1 p2] (x & Hx & Kx & _ & Yx & Xx & Lx). destruct Hx as [<-|[<-|[]]].
        + exfalso. cbn in Kx. specialize (Lx _ (or_intror (or_introl eq_refl)) Kx). cbn in Lx. lia.
        + cbn in Kx, Yx, Xx. injection Yx as <-. injection Xx as <-. split; [symmetry; exact Kx|reflexivity]. }
    destruct L as (p0 & L). intros k k' p p' A B. apply L in A as [-> ->]. apply L in B as [-> ->]. split; [reflexivity|congruence].
Qed.

(** C150: tracks depend on distances and radii only *)
From Coq Require Import Lia Permutation Lqa.
From Verif Require Import M_Base M_Tables S_Tracking S_Motion S_Region S_Shape L_Base L_Tables L_Track L_TrackProps L_Motion P_Tracking P_Region.
Open Scope Z_scope.

Section Two.
Variables (hav hav' : Q * Q -> Q * Q -> Q) (detect detect' : Z -> res frame) (name name' : Z -> Z -> Z) (tf : Z).
Hypothesis So : snapshots_ok detect 0 tf.
Hypothesis So' : snapshots_ok detect' 0 tf.
Hypothesis Ae : forall t i, 0 <= t < tf -> (eddy_at detect t i <-> eddy_at detect' t i).
Hypothesis Hr : forall t r, 0 <= t < tf -> In r (found detect t) \/ In r (found detect' t) -> r_idx r = 0 -> has_radius r.
Hypothesis N0 : forall i, name 0 i = i.
Hypothesis N0' : forall i, name' 0 i = i.
Hypothesis NL : forall t, 0 < t < tf -> linked_at hav detect name t.
Hypothesis NL' : forall t, 0 < t < tf -> linked_at hav' detect' name' t.
Hypothesis Cg : forall t, 0 < t <= tf -> exists n, contiguous (history detect name t) n.
Hypothesis Cg' : forall t, 0 < t <= tf -> exists n, contiguous (history detect' name' t) n.
Hypothesis Hc : forall t r c, 0 < t < tf -> In r (found detect t) -> r_idx r = 0 -> position_of r c -> clear_choice hav (history detect name t) c.

Hypothesis Are : forall t i c rad c' rad' s j p p', 0 < t < tf -> 0 <= s < t -> eddy_with detect t i c rad -> eddy_with detect' t i c' rad' -> placed detect s j p -> placed detect' s j p' ->
  latest_position (history detect name t) (name s j) p -> (reaches hav c rad p <-> reaches hav' c' rad' p').
Hypothesis Ane : forall t i c c' s1 j p p' s2 k q q', 0 < t < tf -> 0 <= s1 < t -> 0 <= s2 < t -> placed detect t i c -> placed detect' t i c' -> placed detect s1 j p -> placed detect' s1 j p' -> placed detect s2 k q -> placed detect' s2 k q' ->
  latest_position (history detect name t) (name s1 j) p -> latest_position (history detect name t) (name s2 k) q -> name s1 j <> name s2 k -> (hav' c' p' <= hav' c' q')%Q -> (hav c p <= hav c q)%Q.

Definition same_names (t : Z) : Prop := forall s i, 0 <= s < t -> eddy_at detect s i -> name s i = name' s i.

Lemma first_of d t i : snapshots_ok d 0 tf -> (forall r, In r (found d t) -> r_idx r = 0 -> has_radius r) -> 0 <= t < tf -> eddy_at d t i -> exists r c rad, In r (found d t) /\ r_id r = i /\ r_idx r = 0 /\ position_of r c /\ radius_eddy (r_cols r) = Num rad.
Proof.
  intros S H Ht (r & Hi & <-). destruct (S t Ht) as (f & Hf & (_ & Fp & Po & _)). unfold found in *. rewrite Hf in *. destruct (Fp r Hi) as (r0 & H0 & E & _ & I). destruct (Po r0 H0 I) as (y & x & Y & X).
  destruct (H r0 H0 I) as (rad & Rad). exists r0, (y, x), rad. repeat split; assumption.
Qed.
Lemma known_same t k : 0 <= t <= tf -> same_names t -> known (history detect name t) k <-> known (history detect' name' t) k.
Proof using All.
  intros Ht Sn. split; intros (r & H & <-); apply history_In in H as (s & r0 & H1 & H2 & ->); cbn [named with_id at_time r_id].
  - assert (E : eddy_at detect s (r_id r0)) by (exists r0; auto). pose proof E as E'. apply Ae in E' as (r1 & A & B); [|lia]. exists (named name' s r1). split; [apply history_In; eauto|]. cbn [named with_id at_time r_id]. rewrite B. symmetry. apply Sn; assumption.
  - assert (E : eddy_at detect' s (r_id r0)) by (exists r0; auto). pose proof E as E'. apply Ae in E' as (r1 & A & B); [|lia]. exists (named name s r1). split; [apply history_In; eauto|]. cbn [named with_id at_time r_id]. rewrite B. apply Sn; [assumption|exists r1; auto].
Qed.
Lemma same_size rs rs' n n' : contiguous rs n -> contiguous rs' n' -> (forall k, known rs k <-> known rs' k) -> n = n'.
Proof.
  intros C C' H. assert (A : forall k, 0 <= k < Z.of_nat n <-> 0 <= k < Z.of_nat n') by (intro k; rewrite <- (C k), <- (C' k); apply H).
  destruct (Nat.lt_trichotomy n n') as [L|[L|L]]; [|exact L|]; exfalso; [pose proof (A (Z.of_nat n))|pose proof (A (Z.of_nat n'))]; lia.
Qed.
(** The latest position of a track in the second run belongs to the eddy that has the latest position of the track in the first. *)
Lemma latest_back t k p' : 0 < t <= tf -> same_names t -> latest_position (history detect' name' t) k p' ->
  exists s j p, 0 <= s < t /\ name s j = k /\ placed detect' s j p' /\ placed detect s j p /\ latest_position (history detect name t) k p.
Proof using All.
  intros Ht Sn (x & Hx & Kx & Ix & Yx & Xx & Lx). apply history_In in Hx as (s & r & H1 & H2 & ->). cbn [named with_id at_time r_id r_idx r_cols r_time] in *.
  assert (E' : eddy_at detect' s (r_id r)) by (exists r; auto). assert (E : eddy_at detect s (r_id r)) by (apply Ae; [lia|exact E']).
  destruct (first_of detect s (r_id r) So ltac:(intros; apply (Hr s); auto; lia) ltac:(lia) E) as (r1 & c & rad & A1 & A2 & A3 & A4 & A5).
  exists s, (r_id r), c. split; [exact H1|]. split; [rewrite <- Kx; apply Sn; assumption|]. split; [exists r; split; [exact H2|]; split; [reflexivity|]; split; [exact Ix|split; assumption]|]. split; [exists r1; auto|].
  exists (named name s r1). split; [apply history_In; eauto|]. cbn [named with_id at_time r_id r_idx r_cols r_time]. split; [rewrite A2, <- Kx; apply Sn; assumption|]. split; [exact A3|]. split; [apply A4|]. split; [apply A4|].
  intros y Hy Ky. apply history_In in Hy as (s2 & y0 & H3 & H4 & ->). cbn [named with_id at_time r_id r_time] in *.
  assert (E2 : eddy_at detect s2 (r_id y0)) by (exists y0; auto). pose proof E2 as E3. apply Ae in E3 as (y1 & B1 & B2); [|lia].
  apply (Lx (named name' s2 y1)); [apply history_In; eauto|]. cbn [named with_id at_time r_id]. rewrite B2, <- Ky. symmetry. apply Sn; assumption.
Qed.
Lemma fresh_same (n : nat) (F : Z -> Prop) g g' N N' :
  (forall i j, F i -> F j -> i < j -> g i < g j) -> (forall i j, F i -> F j -> i < j -> g' i < g' j) ->
  (forall i, F i -> Z.of_nat n <= g i < N) -> (forall i, F i -> Z.of_nat n <= g' i < N') ->
  (forall v, Z.of_nat n <= v < N -> exists i, F i /\ g i = v) -> (forall v, Z.of_nat n <= v < N' -> exists i, F i /\ g' i = v) -> forall i, F i -> g i = g' i.
Proof.
  clear. intros M M' B B' S S'.
  assert (K : forall m v, v = Z.of_nat n + Z.of_nat m -> forall i, F i -> (g i = v <-> g' i = v)).
  { induction m as [m IH] using lt_wf_ind. intros v Ev i Fi.
    assert (IH' : forall u j, Z.of_nat n <= u < v -> F j -> (g j = u <-> g' j = u)) by (intros u j Hu Fj; apply (IH (Z.to_nat (u - Z.of_nat n))); [lia|lia|exact Fj]). clear IH. split; intro E.
    - pose proof (B' i Fi) as Bi. destruct (Z.lt_trichotomy (g' i) v) as [L|[L|L]]; [|exact L|]; exfalso.
      + pose proof (proj2 (IH' (g' i) i ltac:(lia) Fi) eq_refl). lia.
      + destruct (S' v ltac:(lia)) as (j & Fj & Ej). assert (Lj : j < i) by (destruct (Z.lt_trichotomy j i) as [X|[X|X]]; [exact X|subst; lia|pose proof (M' i j Fi Fj X); lia]).
        pose proof (M j i Fj Fi Lj). pose proof (B j Fj). pose proof (proj1 (IH' (g j) j ltac:(lia) Fj) eq_refl). lia.
    - pose proof (B i Fi) as Bi. destruct (Z.lt_trichotomy (g i) v) as [L|[L|L]]; [|exact L|]; exfalso.
      + pose proof (proj1 (IH' (g i) i ltac:(lia) Fi) eq_refl). lia.
      + destruct (S v ltac:(lia)) as (j & Fj & Ej). assert (Lj : j < i) by (destruct (Z.lt_trichotomy j i) as [X|[X|X]]; [exact X|subst; lia|pose proof (M i j Fi Fj X); lia]).
        pose proof (M' j i Fj Fi Lj). pose proof (B' j Fj). pose proof (proj2 (IH' (g' j) j ltac:(lia) Fj) eq_refl). lia. }
  intros i Fi. pose proof (B i Fi). symmetry. apply (K (Z.to_nat (g i - Z.of_nat n)) (g i) ltac:(lia) i Fi). reflexivity.
Qed.
Lemma new_names d nm t (n N : nat) : 0 <= t -> contiguous (history d nm t) n -> contiguous (history d nm (t + 1)) N ->
  (forall i, eddy_at d t i -> nm t i < Z.of_nat N) /\ forall v, Z.of_nat n <= v < Z.of_nat N -> exists i, eddy_at d t i /\ nm t i = v.
Proof.
  intros Ht C C'. split.
  - intros i (r & H & <-). apply C'. exists (named nm t r). split; [apply history_In; exists t, r; split; [lia|auto]|reflexivity].
  - intros v Hv. destruct (proj2 (C' v) ltac:(lia)) as (x & Hx & Kx). rewrite history_next, in_app_iff in Hx by exact Ht. destruct Hx as [Hx|Hx].
    + exfalso. assert (0 <= v < Z.of_nat n) by (apply C; exists x; auto). lia.
    + apply in_map_iff in Hx as (r & <- & H). exists (r_id r). split; [exists r; auto|exact Kx].
Qed.
Lemma step_same t : 0 < t < tf -> same_names t -> same_names (t + 1).
Proof using All.
  intros Ht Sn. destruct (NL t Ht) as (n & pos & Cn & Lp & Lk & Inc). destruct (NL' t Ht) as (n' & pos' & Cn' & Lp' & Lk' & Inc').
  assert (En : n = n') by (apply (same_size _ _ _ _ Cn Cn'); intro k; apply known_same; [lia|exact Sn]). subst n'.
  assert (Lnk : forall i, eddy_at detect t i -> (name t i = name' t i /\ name t i < Z.of_nat n) \/ (Z.of_nat n <= name t i /\ Z.of_nat n <= name' t i)).
  { intros i Ei. assert (Ei' : eddy_at detect' t i) by (apply Ae; [lia|exact Ei]).
    destruct (first_of detect t i So ltac:(intros; apply (Hr t); auto; lia) ltac:(lia) Ei) as (r & c & rad & A1 & A2 & A3 & A4 & A5).
    destruct (first_of detect' t i So' ltac:(intros; apply (Hr t); auto; lia) ltac:(lia) Ei') as (r' & c' & rad' & B1 & B2 & B3 & B4 & B5).
    assert (Pc : placed detect t i c) by (exists r; auto). assert (Pc' : placed detect' t i c') by (exists r'; auto). assert (Wc : eddy_with detect t i c rad) by (exists r; auto 6). assert (Wc' : eddy_with detect' t i c' rad') by (exists r'; auto 6).
    pose proof (Hc t r c Ht A1 A3 A4) as CC.
    assert (Pair : forall k, 0 <= k < Z.of_nat n -> exists s j, 0 <= s < t /\ name s j = k /\ placed detect s j (pos k) /\ placed detect' s j (pos' k)).
    { intros k Hk. destruct (latest_back t k (pos' k) ltac:(lia) Sn (Lp' k Hk)) as (s & j & p & X1 & X0 & X2 & X3 & X4). assert (p = pos k) by (apply (CC k k p (pos k) X4 (Lp k Hk)); reflexivity). subst p. exists s, j. auto. }
    assert (Re : forall k, 0 <= k < Z.of_nat n -> (reaches hav c rad (pos k) <-> reaches hav' c' rad' (pos' k))).
    { intros k Hk. destruct (Pair k Hk) as (s & j & X1 & X0 & X2 & X3). apply (Are t i c rad c' rad' s j); try assumption. rewrite X0. apply Lp, Hk. }
    assert (Ne : forall k k2, 0 <= k < Z.of_nat n -> 0 <= k2 < Z.of_nat n -> k <> k2 -> (hav' c' (pos' k) <= hav' c' (pos' k2))%Q -> (hav c (pos k) <= hav c (pos k2))%Q).
    { intros k k2 Hk Hk2 Nk. destruct (Pair k Hk) as (s & j & X1 & X0 & X2 & X3). destruct (Pair k2 Hk2) as (s2 & j2 & Y1 & Y0 & Y2 & Y3). apply (Ane t i c c' s j (pos k) (pos' k) s2 j2 (pos k2) (pos' k2)); try assumption; rewrite ?X0, ?Y0; [apply Lp, Hk|apply Lp, Hk2|exact Nk]. }
    destruct (Lk r c rad A1 A3 A4 A5) as [(k & Hk & Ek & Rk & Nk)|[Ge Far]]; destruct (Lk' r' c' rad' B1 B3 B4 B5) as [(k' & Hk' & Ek' & Rk' & Nk')|[Ge' Far']]; rewrite ?A2, ?B2 in *.
    - left. assert (k = k'); [|split; [congruence|lia]]. destruct (Z.eq_dec k k') as [E|E]; [exact E|]. exfalso. apply (proj2 (CC k k' (pos k) (pos k') (Lp k Hk) (Lp k' Hk')) E). apply Qle_antisym; [apply Nk, Hk'|]. apply Ne; [assumption..|congruence|]. apply Nk', Hk.
    - exfalso. apply (Far' k Hk), Re; assumption.
    - exfalso. apply (Far k' Hk'), Re; assumption.
    - right. split; assumption. }
  intros s i Hs Ei. destruct (Z.eq_dec s t) as [->|Ns]; [|apply Sn; [lia|exact Ei]].
  destruct (Cg (t + 1) ltac:(lia)) as (N & CN). destruct (Cg' (t + 1) ltac:(lia)) as (N' & CN').
  destruct (new_names detect name t n N ltac:(lia) Cn CN) as [Up Onto]. destruct (new_names detect' name' t n N' ltac:(lia) Cn' CN') as [Up' Onto'].
  destruct (Lnk i Ei) as [[E _]|[G G']]; [exact E|].
  assert (Ed : forall j, eddy_at detect t j <-> eddy_at detect' t j) by (intro j; apply Ae; lia).
  apply (fresh_same n (fun j => eddy_at detect t j /\ Z.of_nat n <= name t j /\ Z.of_nat n <= name' t j) (name t) (name' t) (Z.of_nat N) (Z.of_nat N')).
  - intros a b ((r & A & <-) & Ga & _) ((r' & B & <-) & Gb & _) L. apply (Inc r r'); assumption.
  - intros a b (Ea & _ & Ga) (Eb & _ & Gb) L. apply Ed in Ea as (r & A & <-). apply Ed in Eb as (r' & B & <-). apply (Inc' r r'); assumption.
  - intros a (Ea & Ga & _). split; [exact Ga|apply Up, Ea].
  - intros a (Ea & _ & Ga). split; [exact Ga|apply Up', Ed, Ea].
  - intros v Hv. destruct (Onto v Hv) as (j & Ej & Nj). exists j. split; [|exact Nj]. split; [exact Ej|]. destruct (Lnk j Ej) as [[_ L]|L]; [lia|exact L].
  - intros v Hv. destruct (Onto' v Hv) as (j & Ej & Nj). apply Ed in Ej. exists j. split; [|exact Nj]. split; [exact Ej|]. destruct (Lnk j Ej) as [[L1 L2]|L]; [lia|exact L].
  - split; [exact Ei|]. split; assumption.
Qed.
Lemma all_same : forall m, (0 < m)%nat -> Z.of_nat m <= tf -> same_names (Z.of_nat m).
Proof using All.
  induction m as [|m IH]; [lia|]. intros _ Hl. destruct m as [|m].
  - intros s i Hs _. assert (s = 0) by lia. subst s. rewrite N0, N0'. reflexivity.
  - replace (Z.of_nat (S (S m))) with (Z.of_nat (S m) + 1) by lia. apply step_same; [lia|]. apply IH; lia.
Qed.
End Two.

Lemma same_tracks : forall hav query hav' query', query_ok hav query -> query_ok hav' query' -> forall keep detect detect' fmt len nt tf,
  1 <= nt -> 0 < tf -> snapshots_ok detect 0 tf -> snapshots_ok detect' 0 tf ->
  (forall t f, 0 <= t < tf -> detect t = Ok f \/ detect' t = Ok f -> rows f <> [] /\ distinct_eddies f) ->
  (forall t r, 0 <= t < tf -> In r (found detect t) \/ In r (found detect' t) -> r_idx r = 0 -> has_radius r) ->
  (forall t i, 0 <= t < tf -> (eddy_at detect t i <-> eddy_at detect' t i)) ->
  (forall t T i c rad c' rad' s j k p p', 0 < t < tf -> returns (time_tracking query keep detect true fmt len 0 (Some t) nt) T -> 0 <= s < t -> eddy_with detect t i c rad -> eddy_with detect' t i c' rad' ->
     placed detect s j p -> placed detect' s j p' -> latest_position (rows T) k p -> (reaches hav c rad p <-> reaches hav' c' rad' p')) ->
  (forall t T i c c' s1 j k p p' s2 j2 k2 q q', 0 < t < tf -> returns (time_tracking query keep detect true fmt len 0 (Some t) nt) T -> 0 <= s1 < t -> 0 <= s2 < t -> placed detect t i c -> placed detect' t i c' ->
     placed detect s1 j p -> placed detect' s1 j p' -> placed detect s2 j2 q -> placed detect' s2 j2 q' ->
     latest_position (rows T) k p -> latest_position (rows T) k2 q -> k <> k2 -> (hav' c' p' <= hav' c' q')%Q -> (hav c p <= hav c q)%Q) ->
  (forall t T r c, 0 < t < tf -> returns (time_tracking query keep detect true fmt len 0 (Some t) nt) T -> In r (found detect t) -> r_idx r = 0 -> position_of r c -> clear_choice hav (rows T) c) ->
  exists R R' name,
    returns (time_tracking query keep detect true fmt len 0 (Some tf) nt) R /\ Permutation (rows R) (history detect name tf) /\
    returns (time_tracking query' keep detect' true fmt len 0 (Some tf) nt) R' /\ Permutation (rows R') (history detect' name tf).
Proof.
  intros hav query hav' query' Hq Hq' keep detect detect' fmt len nt tf Hnt Htf So So' Hd Hr Ae Are Ane Hc.
  destruct (names_exist hav query keep detect fmt len nt tf Hq Hnt So ltac:(intros; apply (Hd t); auto) (Z.to_nat tf) ltac:(lia) ltac:(lia)) as (name & N0 & NR & NL).
  destruct (names_exist hav' query' keep detect' fmt len nt tf Hq' Hnt So' ltac:(intros; apply (Hd t); auto) (Z.to_nat tf) ltac:(lia) ltac:(lia)) as (name' & N0' & NR' & NL').
  rewrite Z2Nat.id in * by lia. destruct (NR tf ltac:(lia)) as (R & HR & PR). destruct (NR' tf ltac:(lia)) as (R' & HR' & PR'). exists R, R', name. do 3 (split; [assumption|]).
  assert (Sn : same_names detect name name' tf).
  { rewrite <- (Z2Nat.id tf) by lia. apply (all_same hav hav' detect detect' name name' tf); try assumption; try lia.
    - intros t Ht. destruct (NR t Ht) as (T & HT & PT). destruct (C03_track_ids_contiguous hav query Hq keep detect fmt len 0 t nt T ltac:(lia) ltac:(intros u Hu; apply So; lia) HT) as (n & C & _). exists n. eapply contiguous_perm; eassumption.
    - intros t Ht. destruct (NR' t Ht) as (T & HT & PT). destruct (C03_track_ids_contiguous hav' query' Hq' keep detect' fmt len 0 t nt T ltac:(lia) ltac:(intros u Hu; apply So'; lia) HT) as (n & C & _). exists n. eapply contiguous_perm; eassumption.
    - intros t r c Ht H I P. destruct (NR t ltac:(lia)) as (T & HT & PT). intros k k' p p' L L'. apply (Hc t T r c Ht HT H I P); eapply latest_perm; try (apply Permutation_sym, PT); assumption.
    - intros t i c rad c' rad' s j p p' Ht Hs W W' P P' L. destruct (NR t ltac:(lia)) as (T & HT & PT). apply (Are t T i c rad c' rad' s j (name s j) p p'); try assumption. eapply latest_perm; [apply Permutation_sym, PT|exact L].
    - intros t i c c' s1 j p p' s2 k q q' Ht H1 H2 C C' P P' Q_ Q' L L' N Le. destruct (NR t ltac:(lia)) as (T & HT & PT).
      apply (Ane t T i c c' s1 j (name s1 j) p p' s2 k (name s2 k) q q'); try assumption; eapply latest_perm; try (apply Permutation_sym, PT); assumption. }
  rewrite PR'. replace (history detect' name' tf) with (history detect' name tf); [reflexivity|].
  unfold history. rewrite !flat_map_concat_map. f_equal. apply map_ext_in. intros s Hs. apply steps_In in Hs. apply map_ext_in. intros r Hrr. unfold named. rewrite (Sn s (r_id r) Hs); [reflexivity|]. apply Ae; [lia|exists r; auto].
Qed.

(** C150: the run gives the eddies of both histories the same identifiers. *)
Theorem C150_distances_and_radii_decide : forall hav query hav' query', query_ok hav query -> query_ok hav' query' -> forall keep detect detect' fmt len nt tf,
  1 <= nt -> 0 < tf -> snapshots_ok detect 0 tf -> snapshots_ok detect' 0 tf ->
  (forall t f, 0 <= t < tf -> detect t = Ok f \/ detect' t = Ok f -> rows f <> [] /\ distinct_eddies f) ->
  (forall t r, 0 <= t < tf -> In r (found detect t) \/ In r (found detect' t) -> r_idx r = 0 -> has_radius r) ->
  alike hav hav' detect detect' tf ->
  (forall t T r c, 0 < t < tf -> returns (time_tracking query keep detect true fmt len 0 (Some t) nt) T -> In r (found detect t) -> r_idx r = 0 -> position_of r c -> clear_choice hav (rows T) c) ->
  exists R R' name,
    returns (time_tracking query keep detect true fmt len 0 (Some tf) nt) R /\ Permutation (rows R) (history detect name tf) /\
    returns (time_tracking query' keep detect' true fmt len 0 (Some tf) nt) R' /\ Permutation (rows R') (history detect' name tf).
Proof.
  intros hav query hav' query' Hq Hq' keep detect detect' fmt len nt tf Hnt Htf So So' Hd Hr Al Hc. apply (same_tracks hav query hav' query' Hq Hq'); try assumption.
  - apply (al_eddies _ _ _ _ _ Al).
  - intros t T i c rad c' rad' s j k p p' Ht _ Hs W W' P P' _. apply (al_reach _ _ _ _ _ Al s t i j); try assumption; lia.
  - intros t T i c c' s1 j k p p' s2 j2 k2 q q' Ht _ H1 H2 C C' P P' Q_ Q' _ _ _ Le. apply (al_nearer _ _ _ _ _ Al s1 s2 t i j j2 c c' p p' q q'); try assumption; lia.
Qed.
Print Assumptions C150_distances_and_radii_decide.

(** *** moved positions *)
Lemma Forall2_right {A B} (P : A -> B -> Prop) l l' y : Forall2 P l l' -> In y l' -> exists x, In x l /\ P x y.
Proof. induction 1 as [|a b l l' H _ IH]; [intros []|]. intros [<-|I]; [exists a; split; [left; reflexivity|exact H]|]. destruct (IH I) as (x & X & Y). exists x. split; [right; exact X|exact Y]. Qed.
Lemma Forall2_left {A B} (P : A -> B -> Prop) l l' x : Forall2 P l l' -> In x l -> exists y, In y l' /\ P x y.
Proof. induction 1 as [|a b l l' H _ IH]; [intros []|]. intros [<-|I]; [exists b; split; [left; reflexivity|exact H]|]. destruct (IH I) as (y & X & Y). exists y. split; [right; exact X|exact Y]. Qed.
Lemma NoDup_map_inj {A B} (g : A -> B) l x y : NoDup (map g l) -> In x l -> In y l -> g x = g y -> x = y.
Proof.
  induction l as [|a l IH]; [intros _ []|]. cbn. intros N. inversion N as [|? ? N1 N2]; subst. intros [->|I] [->|J] E; [reflexivity| | |apply IH; assumption]; exfalso; apply N1; [rewrite E|rewrite <- E]; apply in_map; assumption.
Qed.
Lemma one_first f r r' : distinct_eddies f -> In r (rows f) -> In r' (rows f) -> r_idx r = 0 -> r_idx r' = 0 -> r_id r = r_id r' -> r = r'.
Proof.
  intros (n & E) A B I J D. apply (NoDup_map_inj r_id (filter (fun r => r_idx r =? 0) (rows f))); [|apply filter_In; split; [assumption|apply Z.eqb_eq; assumption]..|exact D].
  rewrite E. apply FinFun.Injective_map_NoDup; [intros a b H; lia|apply seq_NoDup].
Qed.
Lemma position_fun r c c' : position_of r c -> position_of r c' -> c = c'.
Proof. intros [A B] [C D]. destruct c, c'; cbn in *. congruence. Qed.
Lemma moved_alike hav f detect detect' tf : keeps_distances hav f -> (forall t, 0 <= t < tf -> exists fr, detect' t = Ok fr /\ distinct_eddies fr) -> (forall t, 0 <= t < tf -> moved_rows f (found detect t) (found detect' t)) -> alike hav hav detect detect' tf.
Proof.
  intros K De Mv.
  assert (Pl : forall t i c c', 0 <= t < tf -> placed detect t i c -> placed detect' t i c' -> c' = f c).
  { intros t i c c' Ht (r & A1 & A2 & A3 & A4) (r' & B1 & B2 & B3 & B4). destruct (Forall2_left _ _ _ _ (Mv t Ht) A1) as (r2 & C1 & C2 & C3 & _ & C5). destruct (De t Ht) as (fr & Hf & D). unfold found in B1, C1. rewrite Hf in B1, C1.
    assert (r2 = r') by (apply (one_first fr); try assumption; congruence). subst r2. apply (position_fun r'); [exact B4|apply C5, A4]. }
  assert (Pr : forall t i c rad c' rad', 0 <= t < tf -> eddy_with detect t i c rad -> eddy_with detect' t i c' rad' -> rad' = rad).
  { intros t i c rad c' rad' Ht (r & A1 & A2 & A3 & A4 & A5) (r' & B1 & B2 & B3 & B4 & B5). destruct (Forall2_left _ _ _ _ (Mv t Ht) A1) as (r2 & C1 & C2 & C3 & C4 & C5). destruct (De t Ht) as (fr & Hf & D). unfold found in B1, C1. rewrite Hf in B1, C1.
    assert (r2 = r') by (apply (one_first fr); try assumption; congruence). subst r2. congruence. }
  assert (Wp : forall d t i c rad, eddy_with d t i c rad -> placed d t i c) by (intros d t i c rad (r & A1 & A2 & A3 & A4 & _); exists r; auto).
  constructor.
  - intros t i Ht. split; intros (r & A & <-); [destruct (Forall2_left _ _ _ _ (Mv t Ht) A) as (r2 & C1 & C2 & _)|destruct (Forall2_right _ _ _ _ (Mv t Ht) A) as (r2 & C1 & C2 & _)]; exists r2; split; congruence.
  - intros s t i j c rad c' rad' p p' Hs Ht E E' P P'. rewrite (Pr t i c rad c' rad' ltac:(lia) E E'), (Pl t i c c' ltac:(lia) (Wp _ _ _ _ _ E) (Wp _ _ _ _ _ E')), (Pl s j p p' ltac:(lia) P P'). unfold reaches. rewrite (K c p). reflexivity.
  - intros s1 s2 t i j k c c' p p' q q' H1 H2 Ht C C' P P' Q_ Q'. rewrite (Pl t i c c' ltac:(lia) C C'), (Pl s1 j p p' ltac:(lia) P P'), (Pl s2 k q q' ltac:(lia) Q_ Q'). rewrite (K c p), (K c q). reflexivity.
Qed.
(** Moving all positions without changing the distances, for example writing longitudes from 0 to 360 instead of -180 to 180, changes no identifier. *)
Theorem C150_moved_positions : forall hav query f, query_ok hav query -> keeps_distances hav f -> forall keep detect detect' fmt len nt tf,
  1 <= nt -> 0 < tf -> snapshots_ok detect 0 tf -> snapshots_ok detect' 0 tf ->
  (forall t f, 0 <= t < tf -> detect t = Ok f \/ detect' t = Ok f -> rows f <> [] /\ distinct_eddies f) ->
  (forall t r, 0 <= t < tf -> In r (found detect t) -> r_idx r = 0 -> has_radius r) ->
  (forall t, 0 <= t < tf -> moved_rows f (found detect t) (found detect' t)) ->
  (forall t T r c, 0 < t < tf -> returns (time_tracking query keep detect true fmt len 0 (Some t) nt) T -> In r (found detect t) -> r_idx r = 0 -> position_of r c -> clear_choice hav (rows T) c) ->
  exists R R' name,
    returns (time_tracking query keep detect true fmt len 0 (Some tf) nt) R /\ Permutation (rows R) (history detect name tf) /\
    returns (time_tracking query keep detect' true fmt len 0 (Some tf) nt) R' /\ Permutation (rows R') (history detect' name tf).
Proof.
  intros hav query f Hq K keep detect detect' fmt len nt tf Hnt Htf So So' Hd Hr Mv Hc. apply (C150_distances_and_radii_decide hav query hav query Hq Hq); try assumption.
  - intros t r Ht [H|H] I; [apply (Hr t); assumption|]. destruct (Forall2_right _ _ _ _ (Mv t Ht) H) as (r0 & A & _ & I0 & Rd & _). destruct (Hr t r0 Ht A ltac:(congruence)) as (rad & E). exists rad. congruence.
  - apply (moved_alike hav f); try assumption. intros t Ht. destruct (So' t Ht) as (fr & E & _). exists fr. split; [exact E|]. apply (Hd t); auto.
Qed.
Print Assumptions C150_moved_positions.

(** Three steps of two drifting eddies, a third one at step 2; the longitudes are counted from another meridian. *)
From Verif Require Import L_Witness.
Definition meridian (p : Q * Q) : Q * Q := (fst p, (snd p + 360)%Q).
Definition demo_shifted (t : Z) : res frame :=
  Ok (snap 100 ([(0, inject_Z t * (1 # 2) + 360); (10, 50 + inject_Z t * (1 # 2) + 360)] ++ (if (t =? 2)%Z then [(40, 7 + 360)] else []))%Q).
Example C150_case : query_ok demo_hav demo_query /\ keeps_distances demo_hav meridian /\ snapshots_ok demo 0 3 /\ snapshots_ok demo_shifted 0 3 /\
  (forall t f, 0 <= t < 3 -> demo t = Ok f \/ demo_shifted t = Ok f -> rows f <> [] /\ distinct_eddies f) /\
  (forall t r, 0 <= t < 3 -> In r (found demo t) -> r_idx r = 0 -> has_radius r) /\
  (forall t, 0 <= t < 3 -> moved_rows meridian (found demo t) (found demo_shifted t)) /\
  (forall t T r c, 0 < t < 3 -> returns (time_tracking demo_query false demo true "csv" 3 0 (Some t) 1) T -> In r (found demo t) -> r_idx r = 0 -> position_of r c -> clear_choice demo_hav (rows T) c).
Proof.
  assert (T3 : forall t, 0 <= t < 3 -> t = 0 \/ t = 1 \/ t = 2) by lia.
  split; [exact demo_ok|]. split.
  { intros [a b] [c d]. unfold demo_hav, meridian. cbn [fst snd]. assert (E : ((b + 360) - (d + 360) == b - d)%Q) by lra. rewrite E. reflexivity. }
  split; [apply demo_ok_all|]. split; [intros t _; eexists; split; [reflexivity|apply snap_ok]|].
  split; [|split; [|split]].
  - intros t f _ [H|H]; injection H as <-; (split; [discriminate|apply snap_distinct]).
  - intros t r Ht H _. destruct (T3 t Ht) as [->|[->| ->]]; cbn in H; repeat (destruct H as [<-|H]; [eexists; reflexivity|]); destruct H.
  - intros t Ht. destruct (T3 t Ht) as [->|[->| ->]]; repeat constructor; intros; match goal with H : position_of _ ?c |- _ => destruct c; destruct H as [Y X]; cbn in Y, X; injection Y as <-; injection X as <-; try reflexivity end.
  - intros t T r c Ht HT H _ Pc. assert (Tt : t = 1 \/ t = 2) by lia. destruct c as [c1 c2]. destruct Pc as [Y X]. cbn in Y, X.
    assert (L : exists p0 p1, (forall k p, latest_position (rows T) k p -> (k = 0 /\ p = p0) \/ (k = 1 /\ p = p1)) /\ forall c, (exists r, In r (found demo t) /\ position_of r c) -> ~ (demo_hav c p0 == demo_hav c p1)%Q).
    { destruct Tt as [->| ->]; vm_compute in HT; injection HT as <-; cbn [rows].
      - eexists (0, _)%Q, (10, _)%Q. split.
        + intros k [p1 p2] (x & Hx & Kx & _ & Yx & Xx & _). destruct Hx as [<-|[<-|[]]]; cbn in Kx, Yx, Xx; injection Yx as <-; injection Xx as <-; [left|right]; (split; [symmetry; exact Kx|reflexivity]).
        + intros [d1 d2] (r0 & H0 & Y0 & X0). cbn in H0. repeat (destruct H0 as [<-|H0]; [cbn in Y0, X0; injection Y0 as <-; injection X0 as <-; vm_compute; discriminate|]); destruct H0.
      - eexists (0, _)%Q, (10, _)%Q. split.
        + intros k [p1 p2] (x & Hx & Kx & _ & Yx & Xx & Lx). cbn [In] in Hx.
          repeat (destruct Hx as [<-|Hx]; [cbn in Kx; first [exfalso; specialize (Lx _ (or_intror (or_introl eq_refl))); cbn in Lx; lia|exfalso; specialize (Lx _ (or_intror (or_intror (or_intror (or_introl eq_refl))))); cbn in Lx; lia|cbn in Yx, Xx; injection Yx as <-; injection Xx as <-; first [left; split; [symmetry; exact Kx|reflexivity]|right; split; [symmetry; exact Kx|reflexivity]]]|]). destruct Hx.
        + intros [d1 d2] (r0 & H0 & Y0 & X0). cbn in H0. repeat (destruct H0 as [<-|H0]; [cbn in Y0, X0; injection Y0 as <-; injection X0 as <-; vm_compute; discriminate|]); destruct H0. }
    destruct L as (p0 & p1 & L & Df). specialize (Df (c1, c2) (ex_intro _ r (conj H (conj Y X)))). intros k k' p p' A B. apply L in A as [[-> ->]|[-> ->]]; apply L in B as [[-> ->]|[-> ->]]; (split; [intro E; first [reflexivity|discriminate E]|intro E; first [exfalso; apply E; reflexivity|exact Df|intro E2; apply Df; symmetry; exact E2]]).
Qed.

(** Merging of levels: tables as lists of (label, eddy). *)
From Coq Require Import ZifyBool ZifyNat Lqa.
From Verif Require Import M_Base M_Tables S_Tracking S_Levels L_Base L_Tables L_Track L_Step.
Open Scope Z_scope.

Definition pairs := list (Z * eddy).
Definition blocks (ps : pairs) : list row := flat_map (fun p => contour_rows (fst p) (snd p)) ps.
Definition enum (E : list eddy) : pairs := map (fun ke => (Z.of_nat (fst ke), snd ke)) (combine (seq 0 (length E)) E).

Lemma table_enum E : table E = blocks (enum E).
Proof. unfold table, blocks, enum. rewrite flat_map_concat_map, flat_map_concat_map, map_map. reflexivity. Qed.

Definition nonempty (ps : pairs) := forall p, In p ps -> snd p <> [].

Lemma contour_rows_cons k c e : contour_rows k (c :: e) = mkRow k 0 0 c :: map (fun ic => mkRow k 0 (Z.of_nat (fst ic)) (snd ic)) (combine (seq 1 (length e)) e).
Proof. reflexivity. Qed.
Lemma contour_rows_In k e r : In r (contour_rows k e) -> r_id r = k /\ r_time r = 0 /\ 0 <= r_idx r /\ e <> [].
Proof.
  unfold contour_rows. intro H. apply in_map_iff in H. destruct H as ((i & c) & <- & Hic). cbn.
  repeat split; [lia|]. intros ->. destruct Hic.
Qed.
Lemma with_id_contour k l e : map (fun r => with_id r l) (contour_rows k e) = contour_rows l e.
Proof. unfold contour_rows. rewrite map_map. reflexivity. Qed.

Lemma blocks_In ps r : In r (blocks ps) <-> exists l e, In (l, e) ps /\ In r (contour_rows l e).
Proof. unfold blocks. rewrite in_flat_map. split; [intros ([l e] & A & B); eauto|intros (l & e & A & B); exists (l, e); auto]. Qed.

Lemma blocks_map f ps : (map (fun r => with_id r (f (r_id r))) (blocks ps)) = blocks (map (fun p => (f (fst p), snd p)) ps).
Proof.
  induction ps as [|[l e] ps IH]; [reflexivity|]. cbn [blocks flat_map map]. rewrite map_app. unfold blocks in IH. rewrite IH. f_equal.
  cbn [fst snd]. rewrite <- (with_id_contour l (f l) e). apply map_ext_in. intros r Hr. apply contour_rows_In in Hr.
  destruct Hr as (-> & _). reflexivity.
Qed.
Lemma filter_contour (g : Z -> bool) l e : filter (fun r => g (r_id r)) (contour_rows l e) = if g l then contour_rows l e else [].
Proof.
  destruct (g l) eqn:E; [apply filter_true|apply filter_none]; intros r Hr; apply contour_rows_In in Hr; destruct Hr as (-> & _); exact E.
Qed.
Lemma blocks_filter (g : Z -> bool) ps : filter (fun r => g (r_id r)) (blocks ps) = blocks (filter (fun p => g (fst p)) ps).
Proof.
  induction ps as [|[l e] ps IH]; [reflexivity|]. cbn [blocks flat_map filter fst snd]. rewrite filter_app, filter_contour.
  unfold blocks in IH. rewrite IH. destruct (g l); reflexivity.
Qed.
Definition firsts (ps : pairs) : list row := flat_map (fun p => match snd p with [] => [] | c :: _ => [mkRow (fst p) 0 0 c] end) ps.
Lemma first_contour l e : filter (fun r => r_idx r =? 0) (contour_rows l e) = match e with [] => [] | c :: _ => [mkRow l 0 0 c] end.
Proof.
  destruct e as [|c e]; [reflexivity|]. rewrite contour_rows_cons. cbn [filter r_idx]. rewrite Z.eqb_refl. f_equal.
  apply filter_none. intros r Hr. apply in_map_iff in Hr. destruct Hr as ((i & c') & <- & Hic). cbn.
  apply in_combine_l, in_seq in Hic. lia.
Qed.
Lemma blocks_first ps : filter (fun r => r_idx r =? 0) (blocks ps) = firsts ps.
Proof.
  induction ps as [|[l e] ps IH]; [reflexivity|]. cbn [blocks flat_map firsts]. rewrite filter_app, first_contour.
  unfold blocks in IH. rewrite IH. reflexivity.
Qed.
Lemma blocks_used ps : nonempty ps -> used (blocks ps) = sort_uniq (map fst ps).
Proof.
  intro H. unfold used. apply sort_uniq_ext. intro x. rewrite !in_map_iff. split.
  - intros (r & <- & Hr). apply blocks_In in Hr. destruct Hr as (l & e & Hle & Hr). apply contour_rows_In in Hr. destruct Hr as (-> & _). exists (l, e). auto.
  - intros ([l e] & <- & Hp). destruct e as [|c e]; [exfalso; apply (H _ Hp); reflexivity|].
    exists (mkRow l 0 0 c). split; [reflexivity|]. apply blocks_In. exists l, (c :: e). split; [exact Hp|]. left. reflexivity.
Qed.
Lemma blocks_exists (g : Z -> bool) ps : nonempty ps -> existsb (fun r => g (r_id r)) (blocks ps) = existsb (fun p => g (fst p)) ps.
Proof.
  intro H. induction ps as [|[l e] ps IH]; [reflexivity|]. cbn [blocks flat_map existsb fst snd]. rewrite existsb_app.
  unfold blocks in IH. rewrite IH by (intros p Hp; apply H; right; exact Hp).
  f_equal. specialize (H (l, e) (or_introl eq_refl)). destruct e as [|c e]; [cbn in H; congruence|].
  rewrite contour_rows_cons. cbn [existsb r_id]. destruct (g l) eqn:Eg; [reflexivity|].
  cbn. apply not_true_is_false. intro Hx. apply existsb_exists in Hx. destruct Hx as (r & Hr & Hg).
  apply in_map_iff in Hr. destruct Hr as (ic & <- & _). cbn in Hg. congruence.
Qed.

(** ** enum *)
Lemma enum_app_nth (E : list eddy) s : forall k e, In (k, e) (map (fun ke => (Z.of_nat (fst ke), snd ke)) (combine (seq s (length E)) E)) <->
  exists i, k = Z.of_nat (s + i) /\ nth_error E i = Some e.
Proof.
  revert s. induction E as [|x E IH]; intros s k e; cbn.
  - split; [intros []|intros (i & _ & H); destruct i; discriminate].
  - rewrite IH. split.
    + intros [H|(i & -> & H)]; [injection H as <- <-; exists 0%nat; split; [lia|reflexivity]|exists (S i); split; [lia|exact H]].
    + intros (i & -> & H). destruct i as [|i]; cbn in H; [left; injection H as <-; f_equal; lia|right; exists i; split; [lia|exact H]].
Qed.
Lemma enum_In E k e : In (k, e) (enum E) <-> exists i, k = Z.of_nat i /\ nth_error E i = Some e.
Proof. apply (enum_app_nth E 0). Qed.
Lemma enum_fst E : map fst (enum E) = zseq (length E).
Proof.
  unfold enum, zseq. rewrite map_map. cbn [fst]. rewrite <- (map_map fst Z.of_nat). f_equal.
  generalize 0%nat as s. induction E as [|x E IH]; intro s; [reflexivity|]. cbn. f_equal. apply IH.
Qed.
Lemma enum_snd E : map snd (enum E) = E.
Proof.
  unfold enum. rewrite map_map. cbn [snd]. generalize 0%nat as s. induction E as [|x E IH]; intro s; [reflexivity|]. cbn. f_equal. apply IH.
Qed.
Lemma pairs_eq (p q : pairs) : map fst p = map fst q -> map snd p = map snd q -> p = q.
Proof.
  revert q. induction p as [|[a b] p IH]; intros [|[c d] q] H1 H2; try discriminate; [reflexivity|].
  cbn in *. injection H1 as -> H1. injection H2 as -> H2. f_equal. auto.
Qed.

Lemma enum_nonempty E : Forall (fun e => e <> []) E -> nonempty (enum E).
Proof.
  intros H [k e] Hp. apply enum_In in Hp. destruct Hp as (i & _ & Hi). cbn. rewrite Forall_forall in H. apply H. eapply nth_error_In; eauto.
Qed.

(** sorted lists with the same elements and distinct keys are equal *)
Definition key (r : row) := (r_id r, r_idx r).
Lemma sorted_unique l1 l2 :
  StronglySorted (fun a b => le_id_idx a b = true) l1 -> StronglySorted (fun a b => le_id_idx a b = true) l2 ->
  Permutation l1 l2 -> NoDup (map key l1) -> l1 = l2.
Proof.
  intros H1. revert l2. induction H1 as [|a l1 Hs IH Ha]; intros l2 H2 Hp Hnd.
  - apply Permutation_nil in Hp. congruence.
  - destruct H2 as [|b l2 Hs2 Hb]; [symmetry in Hp; apply Permutation_nil in Hp; discriminate|].
    assert (E : a = b).
    { assert (Hina : In a (b :: l2)) by (apply (Permutation_in _ Hp); left; reflexivity).
      assert (Hinb : In b (a :: l1)) by (apply (Permutation_in _ (Permutation_sym Hp)); left; reflexivity).
      destruct Hina as [|Hina]; [auto|]. destruct Hinb as [|Hinb]; [auto|].
      rewrite Forall_forall in Ha, Hb. assert (L1 := Ha _ Hinb). assert (L2 := Hb _ Hina).
      exfalso. inversion Hnd as [|? ? Hni _]; subst. apply Hni. apply in_map_iff. exists b. split; [|exact Hinb].
      unfold le_id_idx, key in *. f_equal; lia. }
    subst b. f_equal. apply IH; [assumption|eapply Permutation_cons_inv; exact Hp|].
    inversion Hnd; assumption.
Qed.

Lemma contour_sorted l e : StronglySorted (fun a b => le_id_idx a b = true) (contour_rows l e).
Proof.
  unfold contour_rows. generalize 0%nat as s. induction e as [|c e IH]; intro s; [constructor|]. cbn. constructor; [apply IH|].
  apply Forall_forall. intros r Hr. apply in_map_iff in Hr. destruct Hr as ((i & c') & <- & Hic). apply in_combine_l, in_seq in Hic.
  unfold le_id_idx. cbn. lia.
Qed.
Lemma contour_keys l e : NoDup (map key (contour_rows l e)).
Proof.
  unfold contour_rows. generalize 0%nat as s. induction e as [|c e IH]; intro s; [constructor|]. cbn. constructor; [|apply IH].
  intro H. apply in_map_iff in H. destruct H as (r & Hk & Hr). apply in_map_iff in Hr. destruct Hr as ((i & c') & <- & Hic).
  apply in_combine_l, in_seq in Hic. unfold key in Hk. cbn in Hk. injection Hk as Hk. lia.
Qed.
Lemma SS_app {A} (R : A -> A -> Prop) l1 l2 : StronglySorted R l1 -> StronglySorted R l2 -> (forall a b, In a l1 -> In b l2 -> R a b) -> StronglySorted R (l1 ++ l2).
Proof.
  intros H1 H2 H. induction H1 as [|a l1 Hs IH Ha]; [exact H2|]. cbn. constructor.
  - apply IH. intros; apply H; [right|]; assumption.
  - apply Forall_app. split; [exact Ha|]. apply Forall_forall. intros b Hb. apply H; [left; reflexivity|exact Hb].
Qed.
Lemma blocks_sorted ps : StronglySorted Z.lt (map fst ps) -> StronglySorted (fun a b => le_id_idx a b = true) (blocks ps).
Proof.
  induction ps as [|[l e] ps IH]; intro H; [constructor|]. cbn in H. inversion H as [|? ? Hs Hall]; subst.
  cbn [blocks flat_map fst snd]. apply SS_app; [apply contour_sorted|apply IH; exact Hs|].
  intros a b Ha Hb. apply contour_rows_In in Ha. apply (blocks_In ps) in Hb. destruct Hb as (l' & e' & Hin & Hb). apply contour_rows_In in Hb.
  rewrite Forall_forall in Hall. assert (l < l') by (apply Hall; apply in_map_iff; exists (l', e'); auto). unfold le_id_idx. lia.
Qed.
Lemma blocks_keys ps : NoDup (map fst ps) -> NoDup (map key (blocks ps)).
Proof.
  induction ps as [|[l e] ps IH]; intro H; [constructor|]. cbn in H. inversion H as [|? ? Hni Hnd]; subst.
  cbn [blocks flat_map fst snd]. rewrite map_app. apply NoDup_app_intro; [apply contour_keys|apply IH; exact Hnd|].
  intros x Hx Hx'. apply in_map_iff in Hx. apply in_map_iff in Hx'. destruct Hx as (a & <- & Ha). destruct Hx' as (b & Hk & Hb).
  apply contour_rows_In in Ha. apply (blocks_In ps) in Hb. destruct Hb as (l' & e' & Hin & Hb). apply contour_rows_In in Hb.
  apply Hni. apply in_map_iff. exists (l', e'). split; [|exact Hin]. cbn. unfold key in Hk. injection Hk as Hk _. lia.
Qed.
Lemma blocks_perm ps qs : Permutation ps qs -> Permutation (blocks ps) (blocks qs).
Proof. intro H. unfold blocks. apply Permutation_flat_map. exact H. Qed.

(** ** merging pairs with pairwise different labels *)
Lemma merge_pairs keep fp fn ps ns (qs : pairs) :
  rows fp = blocks ps -> rows fn = blocks ns -> nonempty ps -> nonempty ns ->
  (forall l, In l (map fst ps) -> In l (ids fp)) -> (forall l, In l (map fst ns) -> In l (ids fn)) ->
  StronglySorted Z.lt (map fst qs) -> Permutation (ps ++ ns) qs ->
  exists L, merge_reindex keep fp fn = Ok (mkFrame (table (map snd qs)) (zseq L)) /\ (length qs <= L)%nat.
Proof.
  intros Hp Hn Hpe Hne Hpi Hni Hs Hperm.
  assert (Hlab : forall ps f, rows f = blocks ps -> (forall l, In l (map fst ps) -> In l (ids f)) -> forall r, In r (rows f) -> In (r_id r) (ids f)).
  { intros ps' f E H r Hr. rewrite E in Hr. apply blocks_In in Hr. destruct Hr as (l & e & Hin & Hr). apply contour_rows_In in Hr.
    destruct Hr as (-> & _). apply H. apply in_map_iff. exists (l, e). auto. }
  destruct (merge_Ok keep fp fn (Hlab ps fp Hp Hpi) (Hlab ns fn Hn Hni)) as [Hm Hlen].
  assert (Hne2 : nonempty (ps ++ ns)) by (intros p Hin; apply in_app_or in Hin; destruct Hin; auto).
  assert (Happ : rows fp ++ rows fn = blocks (ps ++ ns)) by (rewrite Hp, Hn; unfold blocks; rewrite flat_map_app; reflexivity).
  assert (Hused : used (rows fp ++ rows fn) = map fst qs).
  { rewrite Happ, blocks_used by exact Hne2. rewrite <- (sort_uniq_fix _ Hs). apply sort_uniq_ext. intro x.
    split; intro H; [apply (Permutation_in _ (Permutation_map fst Hperm))|apply (Permutation_in _ (Permutation_map fst (Permutation_sym Hperm)))]; exact H. }
  rewrite Hused, Happ in *. rewrite blocks_map in Hm.
  exists (length (ids (concat keep fp fn))). split; [|rewrite map_length in Hlen; exact Hlen].
  rewrite Hm. f_equal. f_equal. rewrite table_enum.
  set (rk := fun p : Z * eddy => (rank (map fst qs) (fst p), snd p)).
  assert (Hrk : map rk qs = enum (map snd qs)).
  { apply pairs_eq.
    - rewrite enum_fst, map_map, map_length. unfold rk. cbn [fst]. rewrite <- (map_map fst (rank (map fst qs))).
      apply nth_error_ext. intro i. rewrite nth_error_map.
      destruct (nth_error (map fst qs) i) as [x|] eqn:E.
      + assert (Hi : (i < length qs)%nat) by (rewrite <- (map_length fst); apply nth_error_Some; congruence).
        rewrite zseq_nth by exact Hi. cbn. f_equal. unfold rank.
        destruct (index_of_In x (map fst qs) (nth_error_In _ _ E)) as (j & Hj). rewrite Hj.
        apply index_of_Some in Hj. f_equal. eapply NoDup_nth_error_inj; [apply (NoDup_sorted_lt _ Hs)|eassumption|eassumption].
      + cbn. symmetry. apply nth_error_None. rewrite zseq_length. apply nth_error_None in E. rewrite map_length in E. exact E.
    - rewrite enum_snd, map_map. reflexivity. }
  apply sorted_unique.
  - apply isort_sorted; [exact le_id_idx_total|exact le_id_idx_trans].
  - apply blocks_sorted. rewrite enum_fst. apply zseq_sorted.
  - rewrite isort_perm, <- Hrk. apply blocks_perm. apply Permutation_map. exact Hperm.
  - apply (Permutation_NoDup (l := map key (blocks (enum (map snd qs))))).
    + apply Permutation_map. rewrite isort_perm, <- Hrk. symmetry. apply blocks_perm. apply Permutation_map. exact Hperm.
    + apply blocks_keys. rewrite enum_fst. apply NoDup_sorted_lt, zseq_sorted.
Qed.

(** Lemmas on the base functions. *)
From Coq Require Export Lia Sorting.Permutation Sorting.Sorted.
From Coq Require Import ZifyBool ZifyNat.
From Verif Require Import M_Base.
Open Scope Z_scope.

Lemma insert_uniq_In x y l : In x (insert_uniq y l) <-> x = y \/ In x l.
Proof.
  induction l as [|z t IH]; cbn; [intuition|].
  destruct (y <? z) eqn:?; cbn; [intuition|].
  destruct (y =? z) eqn:E; cbn.
  - apply Z.eqb_eq in E; subst; intuition.
  - rewrite IH; intuition.
Qed.

Lemma sort_uniq_In x l : In x (sort_uniq l) <-> In x l.
Proof. induction l as [|y t IH]; cbn; [tauto|]. rewrite insert_uniq_In, IH; intuition. Qed.

Lemma insert_uniq_sorted x l : StronglySorted Z.lt l -> StronglySorted Z.lt (insert_uniq x l).
Proof.
  induction l as [|z t IH]; cbn; intro H; [repeat constructor|].
  inversion H as [|? ? Ht Hz]; subst.
  destruct (x <? z) eqn:E1.
  - constructor; [exact H|]. constructor; [lia|].
    eapply Forall_impl; [|exact Hz]; cbn; intros; lia.
  - destruct (x =? z) eqn:E2; [exact H|].
    constructor; [apply IH, Ht|].
    apply Forall_forall; intros y Hy. apply insert_uniq_In in Hy.
    rewrite Forall_forall in Hz. destruct Hy as [->|Hy]; [lia|auto].
Qed.

Lemma sort_uniq_sorted l : StronglySorted Z.lt (sort_uniq l).
Proof. induction l; cbn; [constructor|apply insert_uniq_sorted; assumption]. Qed.

Lemma sorted_lt_ext l1 l2 : StronglySorted Z.lt l1 -> StronglySorted Z.lt l2 ->
  (forall x, In x l1 <-> In x l2) -> l1 = l2.
Proof.
  revert l2; induction l1 as [|x t IH]; intros l2 H1 H2 E.
  - destruct l2 as [|y t2]; [reflexivity|]. exfalso. apply (proj2 (E y)); left; reflexivity.
  - destruct l2 as [|y t2].
    + exfalso. apply (proj1 (E x)); left; reflexivity.
    + inversion H1 as [|? ? Ht Hx]; inversion H2 as [|? ? Ht2 Hy]; subst.
      rewrite Forall_forall in Hx, Hy.
      assert (x = y) as ->.
      { destruct (proj1 (E x) (or_introl eq_refl)) as [->|Hin]; [reflexivity|].
        destruct (proj2 (E y) (or_introl eq_refl)) as [->|Hin2]; [reflexivity|].
        specialize (Hy _ Hin). specialize (Hx _ Hin2). lia. }
      f_equal. apply IH; auto. intro z; split; intro Hz.
      * destruct (proj1 (E z) (or_intror Hz)) as [->|]; [|assumption]. specialize (Hx _ Hz); lia.
      * destruct (proj2 (E z) (or_intror Hz)) as [->|]; [|assumption]. specialize (Hy _ Hz); lia.
Qed.

Lemma sort_uniq_fix l : StronglySorted Z.lt l -> sort_uniq l = l.
Proof. intro H. apply sorted_lt_ext; [apply sort_uniq_sorted|exact H|intro; apply sort_uniq_In]. Qed.

Lemma sort_uniq_ext l1 l2 : (forall x, In x l1 <-> In x l2) -> sort_uniq l1 = sort_uniq l2.
Proof.
  intro E. apply sorted_lt_ext; try apply sort_uniq_sorted. intro x. rewrite !sort_uniq_In. apply E.
Qed.

Lemma zseq_In n x : In x (zseq n) <-> 0 <= x < Z.of_nat n.
Proof.
  unfold zseq. rewrite in_map_iff. split.
  - intros (i & <- & Hi). apply in_seq in Hi. lia.
  - intro H. exists (Z.to_nat x). split; [lia|]. apply in_seq. lia.
Qed.

Lemma zseq_length n : length (zseq n) = n.
Proof. unfold zseq. rewrite map_length, seq_length. reflexivity. Qed.

Lemma zseq_S n : zseq (S n) = zseq n ++ [Z.of_nat n].
Proof. unfold zseq. rewrite seq_S, map_app. reflexivity. Qed.

Lemma sorted_lt_map_seq (f : nat -> Z) a n :
  (forall i j, (i < j)%nat -> f i < f j) -> StronglySorted Z.lt (map f (seq a n)).
Proof.
  intro Hf. revert a; induction n as [|n IH]; intro a; cbn; constructor; [apply IH|].
  apply Forall_forall. intros y Hy. apply in_map_iff in Hy. destruct Hy as (i & <- & Hi).
  apply in_seq in Hi. apply Hf. lia.
Qed.

Lemma zseq_sorted n : StronglySorted Z.lt (zseq n).
Proof. apply sorted_lt_map_seq. intros; lia. Qed.

Lemma zseq_nth n i : (i < n)%nat -> nth_error (zseq n) i = Some (Z.of_nat i).
Proof.
  intro H. unfold zseq. rewrite nth_error_map.
  rewrite (nth_error_nth' _ 0%nat) by (rewrite seq_length; lia).
  cbn. rewrite seq_nth by lia. reflexivity.
Qed.

Lemma sort_uniq_zseq l n : (forall x, In x l <-> 0 <= x < Z.of_nat n) -> sort_uniq l = zseq n.
Proof.
  intro E. apply sorted_lt_ext; [apply sort_uniq_sorted|apply zseq_sorted|].
  intro x. rewrite sort_uniq_In, zseq_In. apply E.
Qed.

Lemma zrange_In a b x : In x (zrange a b) <-> a <= x < b.
Proof.
  unfold zrange. rewrite in_map_iff. split.
  - intros (i & <- & Hi). apply in_seq in Hi. lia.
  - intro H. exists (Z.to_nat (x - a)). split; [lia|]. apply in_seq. lia.
Qed.

Lemma zrange_sorted a b : StronglySorted Z.lt (zrange a b).
Proof. apply sorted_lt_map_seq. intros; lia. Qed.

(** insertion sort *)
Lemma insert_perm {A} (le : A -> A -> bool) x l : Permutation (insert le x l) (x :: l).
Proof.
  induction l as [|y t IH]; cbn; [reflexivity|].
  destruct (le x y); [reflexivity|]. rewrite IH. apply perm_swap.
Qed.
Lemma isort_perm {A} (le : A -> A -> bool) l : Permutation (isort le l) l.
Proof. induction l as [|x t IH]; cbn; [reflexivity|]. rewrite insert_perm, IH. reflexivity. Qed.

Lemma isort_In {A} (le : A -> A -> bool) l x : In x (isort le l) <-> In x l.
Proof. split; apply Permutation_in; [|symmetry]; apply isort_perm. Qed.

Lemma insert_sorted {A} (le : A -> A -> bool) x l :
  (forall a b, le a b = true \/ le b a = true) -> (forall a b c, le a b = true -> le b c = true -> le a c = true) ->
  StronglySorted (fun a b => le a b = true) l -> StronglySorted (fun a b => le a b = true) (insert le x l).
Proof.
  intros Htot Htr. induction l as [|y t IH]; cbn; intro H; [repeat constructor|].
  inversion H as [|? ? Ht Hy]; subst. destruct (le x y) eqn:E.
  - constructor; [exact H|]. constructor; [exact E|].
    eapply Forall_impl; [|exact Hy]. cbn. intros a Ha. eapply Htr; eassumption.
  - constructor; [apply IH, Ht|]. apply Forall_forall. intros z Hz.
    apply (Permutation_in _ (insert_perm le x t)) in Hz. destruct Hz as [<-|Hz].
    + destruct (Htot x y); [congruence|assumption].
    + rewrite Forall_forall in Hy. auto.
Qed.
Lemma isort_sorted {A} (le : A -> A -> bool) l :
  (forall a b, le a b = true \/ le b a = true) -> (forall a b c, le a b = true -> le b c = true -> le a c = true) ->
  StronglySorted (fun a b => le a b = true) (isort le l).
Proof. intros. induction l; cbn; [constructor|apply insert_sorted; assumption]. Qed.

Lemma insert_fix {A} (le : A -> A -> bool) x l :
  Forall (fun b => le x b = true) l -> insert le x l = x :: l.
Proof. destruct l as [|y t]; cbn; intro H; [reflexivity|]. inversion H; subst. destruct (le x y); congruence. Qed.
Lemma isort_fix {A} (le : A -> A -> bool) l : StronglySorted (fun a b => le a b = true) l -> isort le l = l.
Proof.
  induction l as [|x t IH]; cbn; intro H; [reflexivity|]. inversion H; subst. rewrite IH by assumption.
  apply insert_fix; assumption.
Qed.

(** index_of *)
Lemma index_of_Some x l i : index_of x l = Some i -> nth_error l i = Some x.
Proof.
  revert i; induction l as [|y t IH]; cbn; intros i H; [discriminate|].
  destruct (x =? y) eqn:E.
  - injection H as <-. cbn. f_equal. lia.
  - destruct (index_of x t) eqn:E2; [|discriminate]. cbn in H. injection H as <-. cbn. apply IH. reflexivity.
Qed.
Lemma index_of_In x l : In x l -> exists i, index_of x l = Some i.
Proof.
  induction l as [|y t IH]; cbn; [tauto|]. intro H.
  destruct (x =? y) eqn:E; [eauto|]. destruct H as [H|H]; [lia|].
  destruct (IH H) as [i ->]. cbn. eauto.
Qed.
Lemma index_of_None x l : ~ In x l -> index_of x l = None.
Proof.
  induction l as [|y t IH]; cbn; [reflexivity|]. intro H.
  destruct (x =? y) eqn:E; [exfalso; apply H; left; lia|]. rewrite IH by tauto. reflexivity.
Qed.
Lemma index_of_app_l x l1 l2 : In x l1 -> index_of x (l1 ++ l2) = index_of x l1.
Proof.
  induction l1 as [|y t IH]; cbn; [tauto|]. intro H.
  destruct (x =? y) eqn:E; [reflexivity|]. rewrite IH; [reflexivity|]. destruct H; [lia|assumption].
Qed.
Lemma index_of_app_r x l1 l2 : ~ In x l1 -> index_of x (l1 ++ l2) = option_map (fun i => (length l1 + i)%nat) (index_of x l2).
Proof.
  induction l1 as [|y t IH]; cbn; intro H; [destruct (index_of x l2); reflexivity|].
  destruct (x =? y) eqn:E; [exfalso; apply H; left; lia|]. rewrite IH by tauto.
  destruct (index_of x l2); reflexivity.
Qed.
Lemma index_of_zseq n x : 0 <= x < Z.of_nat n -> index_of x (zseq n) = Some (Z.to_nat x).
Proof.
  induction n as [|n IH]; intro H; [lia|]. rewrite zseq_S.
  destruct (Z.eq_dec x (Z.of_nat n)) as [->|Hne].
  - rewrite index_of_app_r by (rewrite zseq_In; lia). cbn. rewrite Z.eqb_refl. cbn.
    rewrite zseq_length. f_equal. lia.
  - rewrite index_of_app_l by (apply zseq_In; lia). apply IH. lia.
Qed.
(** position in a filtered increasing sequence = number of kept elements before *)
Lemma index_of_filter_seq (g : nat -> bool) (f : nat -> Z) n j :
  (forall i i', f i = f i' -> i = i') -> (j < n)%nat -> g j = true ->
  index_of (f j) (map f (filter g (seq 0 n))) = Some (length (filter g (seq 0 j))).
Proof.
  intros Hinj Hj Hg. revert Hj. induction n as [|n IH]; intro Hj; [lia|].
  rewrite seq_S, filter_app, map_app.
  destruct (Nat.eq_dec j n) as [->|Hne].
  - rewrite index_of_app_r.
    + cbn. rewrite Hg. cbn. rewrite Z.eqb_refl. cbn. rewrite map_length. f_equal. lia.
    + intro Hin. apply in_map_iff in Hin. destruct Hin as (i & E & Hi). apply Hinj in E. subst.
      apply filter_In in Hi. destruct Hi as [Hi _]. apply in_seq in Hi. lia.
  - rewrite index_of_app_l; [apply IH; lia|].
    apply in_map. apply filter_In. split; [apply in_seq; lia|assumption].
Qed.

Lemma sequence_map_Some {A B} (f : A -> option B) (g : A -> B) l :
  (forall a, In a l -> f a = Some (g a)) -> sequence (map f l) = Some (map g l).
Proof.
  induction l as [|a t IH]; cbn; intro H; [reflexivity|].
  rewrite (H a) by (left; reflexivity). rewrite IH by (intros; apply H; right; assumption). reflexivity.
Qed.
Lemma sequence_Some_nth {A} (l : list (option A)) r i : sequence l = Some r ->
  nth_error l i = option_map Some (nth_error r i).
Proof.
  revert r i; induction l as [|o t IH]; cbn; intros r i H.
  - injection H as <-. destruct i; reflexivity.
  - destruct o as [a|]; [|discriminate]. destruct (sequence t) eqn:E; [|discriminate].
    injection H as <-. destruct i; cbn; [reflexivity|]. apply IH. reflexivity.
Qed.

Lemma zmax_fold l x : exists m, fold_left Z.max l x = m /\ (m = x \/ In m l) /\ x <= m /\ forall y, In y l -> y <= m.
Proof.
  revert x; induction l as [|y t IH]; intro x; cbn.
  - exists x. intuition.
  - destruct (IH (Z.max x y)) as (m & E & Hin & Hle & Hall). exists m. split; [exact E|]. split.
    + destruct Hin as [->|]; [|right; right; assumption].
      destruct (Z.max_spec x y) as [[_ ->]|[_ ->]]; [right; left; reflexivity|left; reflexivity].
    + split; [lia|]. intros z [<-|Hz]; [lia|auto].
Qed.

Lemma bind_Ok {A B} (x : res A) (f : A -> res B) b : bind x f = Ok b -> exists a, x = Ok a /\ f a = Ok b.
Proof. destruct x; cbn; [eauto|discriminate]. Qed.

Lemma filter_filter {A} (f g : A -> bool) l : filter f (filter g l) = filter (fun x => g x && f x)%bool l.
Proof.
  induction l as [|a t IH]; cbn; [reflexivity|].
  destruct (g a); cbn; [destruct (f a); cbn; rewrite IH; reflexivity|exact IH].
Qed.
Lemma filter_map_comm {A B} (f : A -> B) (p : B -> bool) l : filter p (map f l) = map f (filter (fun x => p (f x)) l).
Proof. induction l as [|a t IH]; cbn; [reflexivity|]. destruct (p (f a)); cbn; rewrite IH; reflexivity. Qed.
Lemma filter_true {A} (f : A -> bool) l : (forall x, In x l -> f x = true) -> filter f l = l.
Proof.
  induction l as [|a t IH]; cbn; intro H; [reflexivity|]. rewrite (H a) by (left; reflexivity).
  f_equal. apply IH. intros; apply H; right; assumption.
Qed.
Lemma filter_none {A} (f : A -> bool) l : (forall x, In x l -> f x = false) -> filter f l = [].
Proof.
  induction l as [|a t IH]; cbn; intro H; [reflexivity|]. rewrite (H a) by (left; reflexivity).
  apply IH. intros; apply H; right; assumption.
Qed.

Lemma NoDup_app_intro {A} (l1 l2 : list A) : NoDup l1 -> NoDup l2 -> (forall x, In x l1 -> In x l2 -> False) -> NoDup (l1 ++ l2).
Proof.
  intros H1 H2 H. induction H1 as [|a l1 Hni Hnd IH]; [exact H2|]. cbn. constructor.
  - intro Hin. apply in_app_or in Hin. destruct Hin as [Hin|Hin]; [contradiction|]. apply (H a); [left; reflexivity|exact Hin].
  - apply IH. intros x Hx Hx'. apply (H x); [right; exact Hx|exact Hx'].
Qed.
Lemma nth_error_ext {A} (l1 l2 : list A) : (forall i, nth_error l1 i = nth_error l2 i) -> l1 = l2.
Proof.
  revert l2. induction l1 as [|a l1 IH]; intros [|b l2] H; [reflexivity|specialize (H 0%nat); discriminate|specialize (H 0%nat); discriminate|].
  assert (E := H 0%nat). cbn in E. injection E as ->. f_equal. apply IH. intro i. exact (H (S i)).
Qed.
Lemma NoDup_nth_error_inj {A} (l : list A) i j x : NoDup l -> nth_error l i = Some x -> nth_error l j = Some x -> i = j.
Proof.
  intros Hnd Hi Hj. apply (proj1 (NoDup_nth_error l) Hnd); [apply nth_error_Some; congruence|congruence].
Qed.
Lemma filter_perm {A} (f : A -> bool) l l' : Permutation l l' -> Permutation (filter f l) (filter f l').
Proof.
  induction 1 as [|x l l' H IH|x y l|l1 l2 l3 H1 IH1 H2 IH2]; cbn.
  - constructor.
  - destruct (f x); [constructor|]; exact IH.
  - destruct (f x), (f y); try reflexivity. constructor.
  - rewrite IH1. exact IH2.
Qed.

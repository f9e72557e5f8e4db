(** The effect of one online tracking step. *)
From Coq Require Import ZifyBool ZifyNat.
From Verif Require Import M_Base M_Tables S_Tracking L_Base L_Tables L_Track.
Open Scope Z_scope.

(** new label of eddy j, given the neighbours and the linked positions: neighbour or next fresh number *)
Definition unlinked (nearest : list nat) (j : nat) : bool := negb (memn j nearest).
Definition new_label (P : nat) (index nearest : list nat) (j : Z) : Z :=
  if memn (Z.to_nat j) nearest
  then match nth_error index (Z.to_nat j) with Some k => Z.of_nat k | None => 0 end
  else Z.of_nat (P + length (filter (unlinked nearest) (seq 0 (Z.to_nat j)))).

Lemma sorted_lt_app l1 l2 : StronglySorted Z.lt l1 -> StronglySorted Z.lt l2 ->
  (forall x y, In x l1 -> In y l2 -> x < y) -> StronglySorted Z.lt (l1 ++ l2).
Proof.
  induction 1 as [|a l Hl IH Ha]; cbn; intros H2 H; [assumption|].
  constructor.
  - apply IH; [assumption|]. intros; apply H; [right|]; assumption.
  - apply Forall_app. split; [assumption|]. apply Forall_forall. intros y Hy. apply H; [left; reflexivity|assumption].
Qed.

Lemma sorted_lt_map_filter (f : nat -> Z) g a n :
  (forall i j, (i < j)%nat -> f i < f j) -> StronglySorted Z.lt (map f (filter g (seq a n))).
Proof.
  intro Hf. revert a; induction n as [|n IH]; intro a; cbn; [constructor|].
  destruct (g a); [|apply IH]. cbn. constructor; [apply IH|].
  apply Forall_forall. intros y Hy. apply in_map_iff in Hy. destruct Hy as (i & <- & Hi).
  apply filter_In in Hi. destruct Hi as [Hi _]. apply in_seq in Hi. apply Hf. lia.
Qed.

Section Step.
Variable hav : Q * Q -> Q * Q -> Q.
Variable query : list (Q * Q) -> list (Q * Q) -> list (Q * nat).
Hypothesis Hq : query_ok hav query.
Variable keep : bool.

Lemma update_counter_Ok u c P n : (0 < P)%nat -> ids u = zseq P -> ids c = zseq n -> used (rows c) = zseq n ->
  update_counter u c = Ok (set_index (map (fun r => with_id r (r_id r + Z.of_nat P)) (rows c)), Z.of_nat P - 1).
Proof.
  intros HP Hu Hc Hcu. unfold update_counter. rewrite Hu.
  assert (zmax (zseq P) = Some (Z.of_nat P - 1)) as ->.
  { destruct P as [|P]; [lia|]. change (zseq (S P)) with (0 :: map Z.of_nat (seq 1 P)). cbn [zmax]. f_equal.
    destruct (zmax_fold (map Z.of_nat (seq 1 P)) 0) as (m & -> & Hin & H0 & Hall).
    destruct P as [|P]; [destruct Hin as [->|[]]; lia|].
    assert (H1 : Z.of_nat (S P) <= m) by (apply Hall, in_map, in_seq; lia).
    destruct Hin as [->|Hin]; [lia|]. apply in_map_iff in Hin. destruct Hin as (i & <- & Hi). apply in_seq in Hi. lia. }
  rewrite (set_levels_Ok _ _ (fun l => l + Z.of_nat P)).
  - cbn [bind]. f_equal. f_equal. unfold set_index. f_equal. rewrite Hc.
    symmetry. apply sorted_lt_ext; [apply sort_uniq_sorted| |].
    + unfold zseq. rewrite map_map. apply sorted_lt_map_seq. intros; lia.
    + intro x. unfold used. rewrite sort_uniq_In, !in_map_iff. split.
      * intros (r & <- & Hr). apply in_map_iff in Hr. destruct Hr as (r' & <- & Hr'). cbn.
        exists (r_id r'). split; [lia|]. rewrite <- Hcu, used_In. eauto.
      * intros (l & <- & Hl). rewrite <- Hcu, used_In in Hl. destruct Hl as (r & Hr & <-).
        exists (with_id r (r_id r + Z.of_nat P)). split; [cbn; lia|]. apply in_map_iff. eauto.
  - intros r Hr. rewrite Hc.
    assert (In (r_id r) (zseq n)) as Hin by (rewrite <- Hcu, used_In; eauto).
    apply zseq_In in Hin. exists (Z.to_nat (r_id r)). split; [apply index_of_zseq; exact Hin|].
    rewrite nth_error_map, zseq_nth by lia. cbn. f_equal. lia.
Qed.

Lemma step_Ok f P c t n nt :
  track_wf f P -> snap_wf c t n -> (forall s, In s (window t nt) -> has_time (rows f) s) ->
  exists R pos index nearest,
    track_online query keep f c t nt = Ok R /\
    track_wf R (P + length (filter (unlinked nearest) (seq 0 n))) /\
    Permutation (rows R) (rows f ++ map (fun r => with_id r (new_label P index nearest (r_id r))) (rows c)) /\
    (forall k, In k (zseq P) -> latest_position (rows f) k (pos k)) /\
    (forall j, In j nearest -> (j < length (starts c))%nat) /\
    (forall j r, nth_error (starts c) j = Some r ->
       exists k, nth_error index j = Some k /\ (k < P)%nat /\
         (forall k', In k' (zseq P) -> (hav (pos_of r) (pos (Z.of_nat k)) <= hav (pos_of r) (pos k'))%Q) /\
         (In j nearest <-> nlt (nsub (Num (hav (pos_of r) (pos (Z.of_nat k)) * 6371)) (radius r)) (Num 0) = true)).
Proof.
  intros Hf Hc Hw.
  destruct (step_nearest hav query Hq f P c t n nt Hf Hc Hw) as (u & pos & index & nearest & Hu & Hui & Hdn & Hpos & Hnl & Hns).
  destruct Hf as [HP Hids Hused Hfp Hco Hso]. destruct Hc as [Hn Hcids Hcused Hcfp Hcco Hct].
  unfold track_online. rewrite Hu. cbn [bind]. rewrite Hdn. cbn [bind].
  rewrite (update_counter_Ok u c P n HP Hui Hcids Hcused). cbn [bind].
  assert (Hidx : forall near, In near nearest -> exists k, nth_error index near = Some k /\ Z.of_nat k < Z.of_nat P).
  { intros near Hin. assert (Hl := Hnl _ Hin). destruct (nth_error (starts c) near) as [r|] eqn:E.
    - destruct (Hns _ _ E) as (k & Hk & HkP & _). exists k. split; [assumption|lia].
    - apply nth_error_None in E. lia. }
  rewrite (rename_fold (Z.of_nat P)); [|lia|exact Hidx|reflexivity]. cbn [bind].
  cbn [rows set_index]. rewrite map_map.
  rewrite (map_ext _ (fun r => with_id r (linked_label (Z.of_nat P) index nearest (r_id r + Z.of_nat P)))) by (intro r; reflexivity).
  set (ll := fun j => linked_label (Z.of_nat P) index nearest (j + Z.of_nat P)).
  change (map (fun r => with_id r (linked_label (Z.of_nat P) index nearest (r_id r + Z.of_nat P))) (rows c))
    with (map (fun r => with_id r (ll (r_id r))) (rows c)).
  set (rs2 := map (fun r => with_id r (ll (r_id r))) (rows c)).
  set (L := used (rows f ++ rs2)).
  assert (Hcin : forall r, In r (rows c) -> 0 <= r_id r < Z.of_nat n).
  { intros r Hr. apply zseq_In. rewrite <- Hcused, used_In. eauto. }
  assert (Hll : forall j, 0 <= j -> ll j = if memn (Z.to_nat j) nearest
      then match nth_error index (Z.to_nat j) with Some k => Z.of_nat k | None => 0 end else Z.of_nat P + j).
  { intros j Hj. unfold ll, linked_label. destruct (j + Z.of_nat P <? Z.of_nat P) eqn:E; [lia|].
    replace (Z.to_nat (j + Z.of_nat P - Z.of_nat P)) with (Z.to_nat j) by lia.
    destruct (memn (Z.to_nat j) nearest) eqn:Em; [|lia].
    apply memn_In in Em. destruct (Hidx _ Em) as (k & -> & _). reflexivity. }
  assert (HL : L = zseq P ++ map (fun j => Z.of_nat P + Z.of_nat j) (filter (unlinked nearest) (seq 0 n))).
  { apply sorted_lt_ext; [apply sort_uniq_sorted| |].
    - apply sorted_lt_app; [apply zseq_sorted|apply sorted_lt_map_filter; intros; lia|].
      intros x y Hx Hy. apply zseq_In in Hx. apply in_map_iff in Hy. destruct Hy as (j & <- & _). lia.
    - intro x. unfold L. rewrite used_In, in_app_iff, zseq_In, in_map_iff. split.
      + intros (r & Hr & <-). apply in_app_or in Hr. destruct Hr as [Hr|Hr].
        * left. apply zseq_In. rewrite <- Hused, used_In. eauto.
        * unfold rs2 in Hr. apply in_map_iff in Hr. destruct Hr as (r' & <- & Hr'). cbn [with_id r_id].
          specialize (Hcin _ Hr'). rewrite Hll by lia. destruct (memn (Z.to_nat (r_id r')) nearest) eqn:Em.
          -- left. apply memn_In in Em. destruct (Hidx _ Em) as (k & -> & Hk). lia.
          -- right. exists (Z.to_nat (r_id r')). split; [lia|]. apply filter_In. split; [apply in_seq; lia|].
             unfold unlinked. rewrite Em. reflexivity.
      + intros [Hx|(j & <- & Hj)].
        * apply zseq_In in Hx. rewrite <- Hused, used_In in Hx. destruct Hx as (r & Hr & E).
          exists r. split; [apply in_or_app; left; assumption|assumption].
        * apply filter_In in Hj. destruct Hj as [Hj Hun]. apply in_seq in Hj.
          assert (In (Z.of_nat j) (zseq n)) as Hin by (apply zseq_In; lia).
          rewrite <- Hcused, used_In in Hin. destruct Hin as (r & Hr & E).
          exists (with_id r (ll (r_id r))). split.
          -- apply in_or_app. right. unfold rs2. apply in_map_iff. eauto.
          -- cbn. rewrite E, Hll by lia. rewrite Nat2Z.id. unfold unlinked in Hun.
             destruct (memn j nearest); [discriminate|]. reflexivity. }
  assert (Hrank : forall j, 0 <= j < Z.of_nat n -> rank L (ll j) = new_label P index nearest j).
  { intros j Hj. rewrite Hll by lia. unfold new_label, rank.
    destruct (memn (Z.to_nat j) nearest) eqn:Em.
    - apply memn_In in Em. destruct (Hidx _ Em) as (k & -> & Hk).
      rewrite HL, index_of_app_l by (apply zseq_In; lia). rewrite index_of_zseq by lia. lia.
    - rewrite HL, index_of_app_r by (rewrite zseq_In; lia).
      pose proof (index_of_filter_seq (unlinked nearest) (fun j => Z.of_nat P + Z.of_nat j) n (Z.to_nat j)) as Hix.
      cbn beta in Hix. rewrite Z2Nat.id in Hix by lia.
      rewrite Hix; [|intros; lia|lia|unfold unlinked; rewrite Em; reflexivity].
      cbn. rewrite zseq_length. lia. }
  assert (Hrankf : forall r, In r (rows f) -> rank L (r_id r) = r_id r).
  { intros r Hr. assert (In (r_id r) (zseq P)) as Hin by (rewrite <- Hused, used_In; eauto).
    unfold rank. rewrite HL, index_of_app_l by assumption. apply zseq_In in Hin. rewrite index_of_zseq by assumption. lia. }
  destruct (merge_Ok keep f (set_index rs2)) as [Hm _].
  { intros r Hr. rewrite Hids, <- Hused, used_In. eauto. }
  { intros r Hr. cbn [set_index ids]. apply used_In. eauto. }
  cbn [set_index rows] in Hm. fold L in Hm. rewrite Hm. clear Hm. cbn [bind].
  rewrite map_app. rewrite (map_ext_in _ (fun r => r)) by (intros r Hr; rewrite Hrankf by assumption; apply with_id_id).
  rewrite map_id. unfold rs2 at 1. rewrite map_map.
  rewrite (map_ext_in _ (fun r => with_id r (new_label P index nearest (r_id r)))).
  2:{ intros r Hr. cbn. rewrite Hrank by (apply Hcin; assumption). reflexivity. }
  set (new := map (fun r => with_id r (new_label P index nearest (r_id r))) (rows c)).
  cbn [rows].
  set (R := isort le_id_time_idx (isort le_id_idx (rows f ++ new))).
  assert (HPerm : Permutation R (rows f ++ new)).
  { unfold R. rewrite isort_perm, isort_perm. reflexivity. }
  exists (set_index R), pos, index, nearest. split; [reflexivity|].
  assert (HusedR : used R = zseq (P + length (filter (unlinked nearest) (seq 0 n)))).
  { rewrite (used_perm _ _ HPerm).
    assert (HlenL : length L = (P + length (filter (unlinked nearest) (seq 0 n)))%nat).
    { rewrite HL, app_length, zseq_length, map_length. reflexivity. }
    rewrite <- HlenL. apply sort_uniq_zseq. intro x. rewrite in_map_iff. split.
    - intros (r & <- & Hr). apply in_app_or in Hr.
      assert (exists l, In l L /\ r_id r = rank L l) as (l & Hl & ->).
      { destruct Hr as [Hr|Hr].
        - exists (r_id r). split; [unfold L; apply used_In; exists r; split; [apply in_or_app; left; assumption|reflexivity]|].
          symmetry; apply Hrankf; assumption.
        - unfold new in Hr. apply in_map_iff in Hr. destruct Hr as (r' & <- & Hr').
          exists (ll (r_id r')). split.
          + unfold L. apply used_In. exists (with_id r' (ll (r_id r'))). split; [|reflexivity].
            apply in_or_app. right. unfold rs2. apply in_map_iff. eauto.
          + cbn. symmetry. apply Hrank. apply Hcin; assumption. }
      unfold rank. destruct (index_of_In l L Hl) as (i & Hi). rewrite Hi.
      apply index_of_Some in Hi. assert ((i < length L)%nat) by (apply nth_error_Some; congruence). lia.
    - intro Hx. destruct (nth_error L (Z.to_nat x)) as [l|] eqn:El.
      2:{ apply nth_error_None in El. lia. }
      assert (Hl : In l L) by (eapply nth_error_In; eassumption).
      assert (HlL : rank L l = x).
      { destruct (index_of_In l L Hl) as (i & Hi). unfold rank. rewrite Hi. apply index_of_Some in Hi.
        assert (HND : NoDup L) by (apply NoDup_sorted_lt, sort_uniq_sorted).
        rewrite NoDup_nth_error in HND.
        assert (i = Z.to_nat x) as -> by (apply HND; [apply nth_error_Some; congruence|congruence]). lia. }
      unfold L in Hl. apply used_In in Hl. destruct Hl as (r & Hr & <-). apply in_app_or in Hr. destruct Hr as [Hr|Hr].
      + exists r. split; [rewrite Hrankf in HlL by assumption; assumption|apply in_or_app; left; assumption].
      + unfold rs2 in Hr. apply in_map_iff in Hr. destruct Hr as (r' & <- & Hr'). cbn in HlL.
        rewrite Hrank in HlL by (apply Hcin; assumption).
        exists (with_id r' (new_label P index nearest (r_id r'))). split; [exact HlL|].
        apply in_or_app. right. unfold new. apply in_map_iff. eauto. }
  split.
  { constructor.
    - lia.
    - cbn. exact HusedR.
    - cbn. exact HusedR.
    - cbn. intros r Hr. apply (Permutation_in _ HPerm), in_app_or in Hr. destruct Hr as [Hr|Hr].
      + destruct (Hfp r Hr) as (r0 & Hr0 & E). exists r0. split; [|exact E].
        apply (Permutation_in _ (Permutation_sym HPerm)), in_or_app. left. assumption.
      + unfold new in Hr. apply in_map_iff in Hr. destruct Hr as (r' & <- & Hr').
        destruct (Hcfp r' Hr') as (r0 & Hr0 & E1 & E2 & E3).
        exists (with_id r0 (new_label P index nearest (r_id r0))). split.
        * apply (Permutation_in _ (Permutation_sym HPerm)), in_or_app. right. unfold new. apply in_map_iff. eauto.
        * cbn. rewrite E1. auto.
    - cbn. intros r Hr E. apply (Permutation_in _ HPerm), in_app_or in Hr. destruct Hr as [Hr|Hr]; [auto|].
      unfold new in Hr. apply in_map_iff in Hr. destruct Hr as (r' & <- & Hr'). apply (Hcco r' Hr'). exact E.
    - cbn. unfold R. apply sort3_sorted. }
  split; [exact HPerm|]. auto.
Qed.

Lemma step_fail f P c t nt :
  track_wf f P -> ~ (forall s, In s (window t nt) -> has_time (rows f) s) ->
  track_online query keep f c t nt = Err KeyError.
Proof.
  intros [HP Hids Hused Hfp Hco Hso] Hw. unfold track_online. rewrite (unlink_fail f P); auto.
Qed.
End Step.

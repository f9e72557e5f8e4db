(** Lemmas on the table functions of M_Tables. *)
From Coq Require Import ZifyBool ZifyNat.
From Verif Require Import M_Base M_Tables S_Tracking L_Base.
Open Scope Z_scope.

Lemma relabel_with_id r i : relabel r i = with_id r i.
Proof. reflexivity. Qed.

Lemma contiguous_used rs n : contiguous rs n -> used rs = zseq n.
Proof.
  intro H. apply sort_uniq_zseq. intro x. rewrite <- (H x), in_map_iff.
  split; intros (r & A & B); exists r; tauto.
Qed.
Lemma used_contiguous rs n : used rs = zseq n -> contiguous rs n.
Proof.
  intros H i. rewrite <- zseq_In, <- H. unfold used. rewrite sort_uniq_In, in_map_iff.
  split; intros (r & A & B); exists r; tauto.
Qed.

Lemma used_In rs i : In i (used rs) <-> exists r, In r rs /\ r_id r = i.
Proof.
  unfold used. rewrite sort_uniq_In, in_map_iff. split; intros (r & A & B); exists r; tauto.
Qed.

Lemma used_perm rs rs' : Permutation rs rs' -> used rs = used rs'.
Proof.
  intro H. apply sort_uniq_ext. intro x. rewrite !in_map_iff.
  split; intros (r & E & Hr); exists r; (split; [exact E|]); eapply Permutation_in; try exact Hr; [|symmetry]; exact H.
Qed.

Lemma NoDup_sorted_lt l : StronglySorted Z.lt l -> NoDup l.
Proof.
  induction 1 as [|x t Ht IH Hx]; constructor; [|assumption].
  intro Hin. rewrite Forall_forall in Hx. specialize (Hx _ Hin). lia.
Qed.

(** set_levels when every label is known *)
Lemma set_levels_Ok new f (g : Z -> Z) :
  (forall r, In r (rows f) -> exists c, index_of (r_id r) (ids f) = Some c /\ nth_error new c = Some (g (r_id r))) ->
  set_levels new f = Ok (mkFrame (map (fun r => with_id r (g (r_id r))) (rows f)) new).
Proof.
  intro H. unfold set_levels.
  rewrite (sequence_map_Some _ (fun r => with_id r (g (r_id r)))); [reflexivity|].
  intros r Hr. unfold relabel_code. destruct (H r Hr) as (c & -> & ->). reflexivity.
Qed.

Lemma non_duplicated_twice l : StronglySorted Z.lt l -> non_duplicated (l ++ l) = [].
Proof.
  intro H. apply filter_none. intros x Hx. apply (proj1 (sort_uniq_In _ _)), in_app_or in Hx.
  assert (Hin : In x l) by tauto.
  rewrite count_occ_app. apply (count_occ_In Z.eq_dec) in Hin. apply Nat.eqb_neq. lia.
Qed.

Lemma unlink_loop_spec f times acc :
  StronglySorted Z.lt (ids f) ->
  (forall t, In t times -> exists r, In r (rows f) /\ r_time r = t) ->
  unlink_loop f (ids f) times acc = Ok acc.
Proof.
  intros Hs. revert acc; induction times as [|t ts IH]; intros acc H; cbn; [reflexivity|].
  unfold xs_time_levels.
  assert (existsb (fun r => r_time r =? t) (rows f) = true) as ->.
  { apply existsb_exists. destruct (H t (or_introl eq_refl)) as (r & Hr & E). exists r. split; [assumption|lia]. }
  cbn. rewrite non_duplicated_twice by assumption. rewrite app_nil_r. apply IH.
  intros; apply H; right; assumption.
Qed.
Lemma unlink_loop_fail f times acc :
  ~ (forall t, In t times -> exists r, In r (rows f) /\ r_time r = t) ->
  unlink_loop f (ids f) times acc = Err KeyError.
Proof.
  revert acc; induction times as [|t ts IH]; intros acc H; cbn; [exfalso; apply H; intros ? []|].
  unfold xs_time_levels.
  destruct (existsb (fun r => r_time r =? t) (rows f)) eqn:E; cbn; [|reflexivity].
  apply IH. intro Hall. apply H. intros t' [<-|Ht']; [|auto].
  apply existsb_exists in E. destruct E as (r & Hr & E). exists r. split; [assumption|lia].
Qed.

(** loc_list *)
Lemma loc_list_Ok ks rs :
  (forall k, In k ks -> exists r, In r rs /\ r_id r = k) ->
  loc_list ks rs = Ok (flat_map (fun k => filter (fun r => r_id r =? k) rs) ks).
Proof.
  induction ks as [|k t IH]; cbn; intro H; [reflexivity|].
  destruct (filter (fun r => r_id r =? k) rs) as [|a l] eqn:E.
  - exfalso. destruct (H k (or_introl eq_refl)) as (r & Hr & Ek).
    assert (In r (filter (fun r => r_id r =? k) rs)) as Hin by (apply filter_In; split; [assumption|lia]).
    rewrite E in Hin. destruct Hin.
  - rewrite IH by (intros; apply H; right; assumption). reflexivity.
Qed.

Lemma filter_flat_map {A B} (p : B -> bool) (f : A -> list B) l :
  filter p (flat_map f l) = flat_map (fun a => filter p (f a)) l.
Proof. induction l as [|a t IH]; cbn; [reflexivity|]. rewrite filter_app, IH. reflexivity. Qed.

Lemma flat_map_sel (g : Z -> list row) ks k : NoDup ks ->
  (forall j r, In r (g j) -> r_id r = j) ->
  In k ks -> filter (fun r => r_id r =? k) (flat_map g ks) = g k.
Proof.
  intros Hnd Hg. induction Hnd as [|j t Hnin Hnd IH]; cbn; intro Hin; [destruct Hin|].
  rewrite filter_app. destruct Hin as [->|Hin].
  - rewrite filter_true by (intros r Hr; apply Hg in Hr; lia).
    rewrite filter_none; [apply app_nil_r|].
    intros r Hr. apply in_flat_map in Hr. destruct Hr as (j & Hj & Hr). apply Hg in Hr.
    apply Z.eqb_neq. intro E. assert (j = k) by congruence. subst. contradiction.
  - rewrite filter_none; [cbn; apply IH; assumption|].
    intros r Hr. apply Hg in Hr. apply Z.eqb_neq. intro E. assert (j = k) by congruence. subst. contradiction.
Qed.

Definition group (k : Z) (rs : list row) := filter (fun r => r_id r =? k) rs.
Definition point0 (k : Z) (rs : list row) := filter (fun r => r_idx r =? 0) (group k rs).

Lemma max_times_nth rs n k : used rs = zseq n -> (k < n)%nat ->
  exists t, nth_error (max_times rs) k = Some t.
Proof.
  intros H Hk. unfold max_times. rewrite H, nth_error_map, zseq_nth by assumption. cbn. eauto.
Qed.

(** What the tracker keeps of a table: for every track one row with contour index 0, built from its rows with index 0. *)
Lemma unlink_Ok f n time nt :
  ids f = zseq n -> used (rows f) = zseq n -> has_first_point (rows f) ->
  (forall t, In t (time :: zrange (time - (if time <? nt then time else nt)) time) ->
     exists r, In r (rows f) /\ r_time r = t) ->
  exists u, unlink f time nt = Ok u /\ ids u = zseq n /\
    exists tm : Z -> Z,
      filter (fun r => r_idx r =? 0) (rows u)
        = map (fun k => mkRow k (tm k) 0 (last_cols (map r_cols (point0 k (rows f))))) (zseq n).
Proof.
  intros Hids Hused Hfp Ht. unfold unlink.
  unfold xs_time_levels at 1.
  assert (existsb (fun r => r_time r =? time) (rows f) = true) as ->.
  { apply existsb_exists. destruct (Ht time (or_introl eq_refl)) as (r & Hr & E). exists r. split; [assumption|lia]. }
  cbn [bind].
  rewrite unlink_loop_spec; [|rewrite Hids; apply zseq_sorted|intros t Hin; apply Ht; right; assumption].
  cbn [bind]. rewrite Hids, sort_uniq_fix by apply zseq_sorted.
  rewrite loc_list_Ok.
  2:{ intros k Hk. rewrite <- Hused, used_In in Hk. exact Hk. }
  cbn [bind].
  set (sel := flat_map _ _).
  assert (Hgrp : forall k, In k (zseq n) -> group k sel = group k (rows f)).
  { intros k Hk. unfold group, sel.
    rewrite (flat_map_sel (fun k => filter (fun r => r_id r =? k) (rows f))); [reflexivity| | |exact Hk].
    - apply NoDup_sorted_lt, zseq_sorted.
    - intros j r Hr. apply filter_In in Hr. lia. }
  assert (Hus : used sel = zseq n).
  { apply sort_uniq_zseq. intro x. rewrite in_map_iff. split.
    - intros (r & <- & Hr). unfold sel in Hr. apply in_flat_map in Hr. destruct Hr as (k & Hk & Hr).
      apply filter_In in Hr. apply zseq_In in Hk. lia.
    - intro Hx. apply zseq_In in Hx. generalize Hx; intro Hx'. rewrite <- Hused, used_In in Hx.
      destruct Hx as (r & Hr & E). exists r. split; [assumption|]. unfold sel. apply in_flat_map. exists x.
      split; [assumption|]. apply filter_In. split; [assumption|lia]. }
  set (tm := fun k => nth (Z.to_nat k) (max_times sel) 0).
  assert (Htm : forall k, In k (zseq n) -> (if k <? 0 then None else nth_error (max_times sel) (Z.to_nat k)) = Some (tm k)).
  { intros k Hk. apply zseq_In in Hk. destruct (k <? 0) eqn:E; [lia|].
    destruct (max_times_nth sel n (Z.to_nat k) Hus) as (t & Et); [lia|]. rewrite Et. f_equal.
    unfold tm. symmetry. apply nth_error_nth with (1 := Et). }
  set (mk := fun k i => mkRow k (tm k) i (last_cols (map r_cols (filter (fun r => r_idx r =? i) (group k (rows f)))))).
  assert (Hg : group_last (max_times sel) sel
     = Ok (flat_map (fun k => map (mk k) (sort_uniq (map r_idx (group k (rows f))))) (zseq n))).
  { unfold group_last. rewrite Hus.
    set (F := fun k => map _ _).
    assert (sequence (flat_map F (zseq n)) =
            Some (flat_map (fun k => map (mk k) (sort_uniq (map r_idx (group k (rows f))))) (zseq n))) as ->; [|reflexivity].
    assert (Hsub : forall k, In k (zseq n) -> In k (zseq n)) by auto. revert Hsub.
    generalize (zseq n) at 1 3 4 as ks. induction ks as [|k ks IH]; intro Hsub; cbn [flat_map]; [reflexivity|].
    assert (Hk : In k (zseq n)) by (apply Hsub; left; reflexivity).
    unfold F at 1. change (filter (fun r => r_id r =? k) sel) with (group k sel). rewrite (Hgrp k Hk), (Htm k Hk).
    cbn [option_map].
    specialize (IH (fun j Hj => Hsub j (or_intror Hj))).
    generalize (sort_uniq (map r_idx (group k (rows f)))) as is. induction is as [|i is IHi]; cbn [map app sequence].
    - exact IH.
    - rewrite IHi. reflexivity. }
  rewrite Hg. cbn [bind]. eexists. split; [reflexivity|].
  assert (Hzero : forall k, In k (zseq n) -> filter (fun i => i =? 0) (sort_uniq (map r_idx (group k (rows f)))) = [0]).
  { intros k Hk. apply sorted_lt_ext.
    - assert (Hs := sort_uniq_sorted (map r_idx (group k (rows f)))).
      induction Hs as [|a l Hl IHl Ha]; cbn; [constructor|]. destruct (a =? 0); [|exact IHl].
      constructor; [exact IHl|]. apply Forall_forall. intros y Hy. apply filter_In in Hy.
      rewrite Forall_forall in Ha. apply Ha, Hy.
    - repeat constructor.
    - intro x. rewrite filter_In, sort_uniq_In, in_map_iff. cbn. split.
      + intros [_ E]. left. lia.
      + intros [<-|[]]. split; [|reflexivity].
        rewrite <- Hused, used_In in Hk. destruct Hk as (r & Hr & E).
        destruct (Hfp r Hr) as (r0 & Hr0 & E1 & _ & E2). exists r0. split; [assumption|].
        unfold group. apply filter_In. split; [assumption|lia]. }
  split.
  - cbn. apply sort_uniq_zseq. intro x. rewrite in_map_iff. split.
    + intros (r & <- & Hr). apply in_flat_map in Hr. destruct Hr as (k & Hk & Hr).
      apply in_map_iff in Hr. destruct Hr as (i & <- & _). cbn. apply zseq_In. assumption.
    + intro Hx. apply zseq_In in Hx. exists (mk x 0). split; [reflexivity|]. apply in_flat_map. exists x.
      split; [assumption|]. apply in_map.
      assert (In 0 [0]) as H0 by (left; reflexivity). rewrite <- (Hzero x Hx) in H0. apply filter_In in H0. tauto.
  - exists tm. cbn. rewrite filter_flat_map.
    rewrite flat_map_concat_map, (map_ext_in _ (fun k => [mk k 0])).
    + rewrite <- flat_map_concat_map. clearbody tm. clear. induction (zseq n) as [|z l IHl]; cbn; [reflexivity|]. f_equal.
    + intros k Hk. rewrite filter_map_comm. cbn. rewrite (Hzero k Hk). reflexivity.
Qed.

Lemma unlink_fail f n time nt :
  ids f = zseq n -> used (rows f) = zseq n ->
  ~ (forall t, In t (time :: zrange (time - (if time <? nt then time else nt)) time) ->
     exists r, In r (rows f) /\ r_time r = t) ->
  unlink f time nt = Err KeyError.
Proof.
  intros Hids Hused Hn. unfold unlink, xs_time_levels at 1.
  destruct (existsb (fun r => r_time r =? time) (rows f)) eqn:E; [|reflexivity].
  cbn [bind]. rewrite unlink_loop_fail; [reflexivity|].
  intro Hall. apply Hn. intros t [<-|Ht]; [|auto].
  apply existsb_exists in E. destruct E as (r & Hr & Et). exists r. split; [assumption|lia].
Qed.

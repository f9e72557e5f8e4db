(** Whatever the levels contain, a scan that returns gives a proper snapshot table. *)
From Coq Require Import ZifyBool ZifyNat.
From Verif Require Import M_Base M_Tables S_Tracking S_Levels L_Base L_Tables L_Track L_Step L_Run L_Levels L_Levels2 L_Levels3.
Open Scope Z_scope.

(** Rows with complete contours, positions, time 0, whose content (index and columns) satisfies [src]. *)
Definition good (src : row -> Prop) (rs : list row) : Prop :=
  has_first_point rs /\ forall r, In r rs -> r_time r = 0 /\ (r_idx r = 0 -> has_position r) /\ src (with_id r 0).
Definition labelled (f : frame) : Prop := forall r, In r (rows f) -> In (r_id r) (ids f).

Section Good.
Variable src : row -> Prop.
Notation good := (good src).

Lemma good_map g rs : good rs -> good (map (fun r => with_id r (g (r_id r))) rs).
Proof.
  intros [H1 H2]. split.
  - intros r Hr. apply in_map_iff in Hr. destruct Hr as (r' & <- & Hr). destruct (H1 r' Hr) as (r0 & A & B & C & D).
    exists (with_id r0 (g (r_id r0))). split; [apply in_map_iff; eauto|]. cbn. rewrite B. auto.
  - intros r Hr. apply in_map_iff in Hr. destruct Hr as (r' & <- & Hr). destruct (H2 r' Hr) as (A & B & C). auto.
Qed.
Lemma good_filter p rs : good rs -> good (filter (fun r => p (r_id r)) rs).
Proof.
  intros [H1 H2]. split.
  - intros r Hr. apply filter_In in Hr. destruct Hr as [Hr Hp]. destruct (H1 r Hr) as (r0 & A & B & C & D).
    exists r0. split; [apply filter_In; rewrite B; auto|]. auto.
  - intros r Hr. apply filter_In in Hr. apply H2, Hr.
Qed.
Lemma good_app a b : good a -> good b -> good (a ++ b).
Proof.
  intros [H1 H2] [H3 H4]. split.
  - intros r Hr. apply in_app_or in Hr. destruct Hr as [Hr|Hr]; [destruct (H1 r Hr) as (r0 & A & B)|destruct (H3 r Hr) as (r0 & A & B)];
    exists r0; (split; [apply in_or_app; auto|exact B]).
  - intros r Hr. apply in_app_or in Hr. destruct Hr; auto.
Qed.
Lemma good_perm a b : Permutation a b -> good a -> good b.
Proof.
  intros Hp [H1 H2]. split.
  - intros r Hr. apply (Permutation_in _ (Permutation_sym Hp)) in Hr. destruct (H1 r Hr) as (r0 & A & B). exists r0. split; [apply (Permutation_in _ Hp A)|exact B].
  - intros r Hr. apply (Permutation_in _ (Permutation_sym Hp)) in Hr. auto.
Qed.

Lemma set_levels_inv new f f' : set_levels new f = Ok f' ->
  exists g, rows f' = map (fun r => with_id r (g (r_id r))) (rows f) /\ ids f' = new /\ labelled f'.
Proof.
  unfold set_levels, labelled. destruct (sequence _) as [rs|] eqn:E; [|discriminate]. intro H. injection H as <-. cbn [rows ids].
  set (g := fun i => match index_of i (ids f) with Some c => nth c new 0 | None => 0 end).
  assert (Hrs : rs = map (fun r => with_id r (g (r_id r))) (rows f) /\ forall r, In r rs -> In (r_id r) new).
  { revert rs E. induction (rows f) as [|r l IH]; cbn [map sequence]; intros rs E.
    - injection E as <-. split; [reflexivity|intros r []].
    - destruct (relabel_code (ids f) new r) as [r'|] eqn:Er; [|discriminate].
      destruct (sequence (map (relabel_code (ids f) new) l)) as [rs'|]; [|discriminate]. injection E as <-.
      destruct (IH rs' eq_refl) as [-> H2]. unfold relabel_code in Er. destruct (index_of (r_id r) (ids f)) as [c|] eqn:Ec; [|discriminate].
      destruct (nth_error new c) as [v|] eqn:Ev; [|discriminate]. cbn in Er. injection Er as <-. split.
      + cbn [map]. f_equal. unfold g. rewrite Ec. rewrite (nth_error_nth _ _ _ Ev). reflexivity.
      + intros q [<-|Hq]; [cbn; eapply nth_error_In; eauto|auto]. }
  destruct Hrs as [Hrs Hin]. exists g. auto.
Qed.

Lemma rename_good k v f : good (rows f) -> good (rows (rename_id k v f)).
Proof.
  intro H. unfold rename_id, set_index. cbn [rows].
  rewrite (map_ext _ (fun r => with_id r ((fun i => if i =? k then v else i) (r_id r)))).
  - apply (good_map (fun i => if i =? k then v else i)). exact H.
  - intro r. destruct (r_id r =? k); [reflexivity|]. symmetry. apply with_id_id.
Qed.
Lemma rename_labelled k v f : labelled (rename_id k v f).
Proof. intros r Hr. unfold rename_id, set_index in *. cbn [rows ids] in *. apply used_In. eauto. Qed.
Lemma drop_good ks f f' : drop_ids ks f = Ok f' -> good (rows f) -> labelled f -> good (rows f') /\ labelled f'.
Proof.
  unfold drop_ids. destruct (existsb _ _); [|discriminate]. intros E Hg Hl. injection E as <-. split; cbn [rows].
  - apply (good_filter (fun i => negb (mem i ks))). exact Hg.
  - intros r Hr. cbn [rows ids] in *. apply filter_In in Hr. apply Hl, Hr.
Qed.

Lemma better_good p index prev : forall nearest n replaced n' rep',
  better_loop p n index nearest prev replaced = Ok (n', rep') -> good (rows n) -> labelled n -> good (rows n') /\ labelled n'.
Proof.
  induction nearest as [|d t IH]; intros n replaced n' rep' H Hg Hl; cbn [better_loop] in H.
  - injection H as <- <-. auto.
  - destruct (nth_error index d); [|discriminate]. destruct (loc_check _ p); [|discriminate]. destruct (loc_check _ n); [|discriminate]. cbn [bind] in H.
    destruct (xs_id_index0 _ p); [|discriminate]. destruct (xs_id_index0 _ n); [|discriminate]. cbn [bind] in H.
    destruct (array_gt (map (fun r : row => contour_ellipse_error (r_cols r)) _) _); [|discriminate]. cbn [bind] in H.
    match type of H with bind ?x _ = _ => destruct x as [[]|]; [| |discriminate] end; cbn [bind] in H.
    + eapply IH; [exact H|apply rename_good; exact Hg|apply rename_labelled].
    + destruct (drop_ids _ n) as [n1|] eqn:Ed; [|discriminate]. cbn [bind] in H. destruct (drop_good _ _ _ Ed Hg Hl). eapply IH; eauto.
Qed.

Lemma update_good p n index nearest p' n' : update_better_eddy p n index nearest = Ok (p', n') ->
  good (rows p) -> labelled p -> good (rows n) -> (good (rows p') /\ labelled p') /\ good (rows n') /\ labelled n'.
Proof.
  unfold update_better_eddy, update_counter. intros H Hp Hlp Hn. destruct (zmax (ids p)) as [prev|]; [|discriminate].
  destruct (set_levels _ n) as [n1|] eqn:Es; [|discriminate]. cbn [bind] in H.
  destruct (set_levels_inv _ _ _ Es) as (g & H1 & _ & H3).
  destruct (better_loop p n1 index nearest prev []) as [[n2 rep]|] eqn:Eb; [|discriminate]. cbn [bind] in H.
  destruct (better_good _ _ _ _ _ _ _ _ Eb) as [G1 G2]; [rewrite H1; apply good_map; exact Hn|exact H3|].
  destruct rep as [|z rep].
  - injection H as <- <-. auto.
  - destruct (drop_ids (z :: rep) p) as [p2|] eqn:Ed; [|discriminate]. cbn [bind] in H. injection H as <- <-.
    split; [exact (drop_good _ _ _ Ed Hp Hlp)|auto].
Qed.

Lemma merge_good keep p n m : merge_reindex keep p n = Ok m -> good (rows p) -> labelled p -> good (rows n) -> labelled n ->
  good (rows m) /\ labelled m /\ StronglySorted (fun a b => le_id_idx a b = true) (rows m) /\ exists k, contiguous (rows m) k.
Proof.
  intros H Hp Hlp Hn Hln. destruct (merge_Ok keep p n Hlp Hln) as [Hm Hlen]. rewrite Hm in H. injection H as <-. cbn [rows ids].
  set (L := used (rows p ++ rows n)) in *.
  assert (HP := isort_perm le_id_idx (map (fun r => with_id r (rank L (r_id r))) (rows p ++ rows n))).
  assert (Hc : contiguous (isort le_id_idx (map (fun r => with_id r (rank L (r_id r))) (rows p ++ rows n))) (length L)).
  { intro i. split.
    - intros (r & Hr & <-). apply (Permutation_in _ HP) in Hr. apply in_map_iff in Hr. destruct Hr as (r' & <- & Hr'). cbn.
      assert (Hl : In (r_id r') L) by (apply used_In; eauto). unfold rank. destruct (index_of_In _ L Hl) as (i & Hi). rewrite Hi.
      apply index_of_Some in Hi. assert ((i < length L)%nat) by (apply nth_error_Some; congruence). lia.
    - intro Hi. destruct (nth_error L (Z.to_nat i)) as [x|] eqn:Ex; [|apply nth_error_None in Ex; lia].
      assert (Hx : In x L) by (eapply nth_error_In; eauto).
      assert (HlL : rank L x = i).
      { destruct (index_of_In x L Hx) as (k & Hk). unfold rank. rewrite Hk. apply index_of_Some in Hk.
        assert (HND : NoDup L) by (apply NoDup_sorted_lt, sort_uniq_sorted). rewrite NoDup_nth_error in HND.
        assert (k = Z.to_nat i) as -> by (apply HND; [apply nth_error_Some; congruence|congruence]). lia. }
      apply used_In in Hx. destruct Hx as (r & Hr & <-).
      exists (with_id r i). split; [|reflexivity]. apply (Permutation_in _ (Permutation_sym HP)). apply in_map_iff. exists r. split; [|exact Hr].
      f_equal. exact HlL. }
  split; [|split; [|split; [|eauto]]].
  - apply (good_perm _ _ (Permutation_sym HP)). apply good_map, good_app; assumption.
  - intros r Hr. cbn [rows ids] in *. apply zseq_In. destruct (proj1 (Hc (r_id r)) (ex_intro _ r (conj Hr eq_refl))). change (if keep then sort_uniq (ids p ++ ids n) else L) with (ids (concat keep p n)). lia.
  - apply isort_sorted; [exact le_id_idx_total|exact le_id_idx_trans].
Qed.
End Good.

Definition from_levels (levels : list (list eddy)) (r : row) : Prop :=
  exists N e, In N levels /\ In e N /\ In r (contour_rows 0 e).
Definition shaped (f : frame) : Prop :=
  labelled f /\ StronglySorted (fun a b => le_id_idx a b = true) (rows f) /\ exists k, contiguous (rows f) k.

Lemma first_of_contour k e r : In r (contour_rows k e) -> exists c rest, e = c :: rest /\ In (mkRow k 0 0 c) (contour_rows k e).
Proof.
  intro H. destruct e as [|c rest]; [destruct H|]. exists c, rest. split; [reflexivity|]. rewrite contour_rows_cons. left. reflexivity.
Qed.
Lemma level_good levels N : In N levels -> Forall eddy_ok N -> good (from_levels levels) (rows (level_table N)) /\ shaped (level_table N).
Proof.
  intros HN Hok. assert (Hin : forall r, In r (table N) -> exists i e, nth_error N i = Some e /\ In r (contour_rows (Z.of_nat i) e)).
  { intros r Hr. rewrite table_enum in Hr. apply blocks_In in Hr. destruct Hr as (l & e & Hl & Hr). apply enum_In in Hl. destruct Hl as (i & -> & Hi). eauto. }
  assert (Hout : forall r i e, nth_error N i = Some e -> In r (contour_rows (Z.of_nat i) e) -> In r (table N)).
  { intros r i e Hi Hr. rewrite table_enum. apply blocks_In. exists (Z.of_nat i), e. split; [apply enum_In; eauto|exact Hr]. }
  unfold level_table. cbn [rows]. split; [split|split; [|split]].
  - intros r Hr. destruct (Hin r Hr) as (i & e & Hi & He). destruct (first_of_contour _ _ _ He) as (c & rest & _ & Hf).
    exists (mkRow (Z.of_nat i) 0 0 c). split; [eapply Hout; eauto|]. cbn. apply contour_rows_In in He. intuition congruence.
  - intros r Hr. destruct (Hin r Hr) as (i & e & Hi & He). split; [apply contour_rows_In in He; apply He|]. split.
    + intro Hx. rewrite Forall_forall in Hok. destruct (Hok e (nth_error_In _ _ Hi)) as (p & c & rest & -> & Hy & Hxx).
      assert (Hf : In r (filter (fun r => r_idx r =? 0) (contour_rows (Z.of_nat i) (c :: rest)))) by (apply filter_In; split; [exact He|lia]).
      rewrite first_contour in Hf. destruct Hf as [<-|[]]. cbn. exists (fst p), (snd p). auto.
    + exists N, e. split; [exact HN|]. split; [eapply nth_error_In; eauto|]. rewrite <- (with_id_contour (Z.of_nat i)).
      apply in_map_iff. exists r. auto.
  - intros r Hr. cbn [rows ids] in *. destruct (Hin r Hr) as (i & e & Hi & He). apply contour_rows_In in He. destruct He as (-> & _).
    apply in_map. apply in_seq. assert (i < length N)%nat by (apply nth_error_Some; congruence). lia.
  - rewrite table_enum. apply blocks_sorted. rewrite enum_fst. apply zseq_sorted.
  - exists (length N). intro i. split.
    + intros (r & Hr & <-). destruct (Hin r Hr) as (k & e & Hk & He). apply contour_rows_In in He. destruct He as (-> & _).
      assert (k < length N)%nat by (apply nth_error_Some; congruence). lia.
    + intro Hi. destruct (nth_error N (Z.to_nat i)) as [e|] eqn:Ee; [|apply nth_error_None in Ee; lia].
      rewrite Forall_forall in Hok. destruct (Hok e (nth_error_In _ _ Ee)) as (p & c & rest & -> & _).
      exists (mkRow i 0 0 c). split; [|reflexivity]. eapply Hout; [exact Ee|]. rewrite Z2Nat.id by lia. rewrite contour_rows_cons. left. reflexivity.
Qed.

Lemma good_sorted src rs : good src rs -> StronglySorted (fun a b => le_id_idx a b = true) rs -> sorted_table rs.
Proof.
  intros [_ H] Hs. unfold sorted_table. induction Hs as [|r rs Hs IH Hall]; constructor.
  - apply IH. intros r' Hr'. apply H. right. exact Hr'.
  - rewrite Forall_forall in *. intros r' Hr'. specialize (Hall r' Hr'). unfold le_id_idx in Hall. unfold row_le.
    assert (r_time r = 0) by (apply H; left; reflexivity). assert (r_time r' = 0) by (apply H; right; exact Hr'). lia.
Qed.

Section Scan4.
Variable query : list (Q * Q) -> list (Q * Q) -> list (Q * nat).
Variable keep : bool.
Lemma loop_good all levels : forall f R, incl levels all -> Forall (Forall eddy_ok) levels ->
  level_loop query keep f (map (fun N => Ok (level_table N)) levels) = Ok R ->
  good (from_levels all) (rows f) -> shaped f -> good (from_levels all) (rows R) /\ shaped R.
Proof.
  induction levels as [|N levels IH]; intros f R Hi Hok H Hg Hs; cbn [map level_loop bind] in H.
  - injection H as <-. auto.
  - inversion Hok as [|? ? Ho1 Ho2]; subst. assert (Hi' : incl levels all) by (intros x Hx; apply Hi; right; exact Hx).
    destruct (level_good all N (Hi N (or_introl eq_refl)) Ho1) as [Gn Sn].
    destruct (empty (level_table N)); [eapply IH; eauto|].
    destruct (empty f); [eapply IH; eauto|].
    destruct (detect_nearest query f (level_table N)) as [[index nearest]|]; [|discriminate]. cbn [bind] in H.
    destruct (update_better_eddy f (level_table N) index nearest) as [[p n]|] eqn:Eu; [|discriminate]. cbn [bind] in H.
    destruct (merge_reindex keep p n) as [m|] eqn:Em; [|discriminate]. cbn [bind] in H.
    destruct (update_good _ _ _ _ _ _ _ Eu Hg (proj1 Hs) Gn) as [[A B] [C D]].
    destruct (merge_good _ _ _ _ _ Em A B C D) as (E1 & E2 & E3 & E4).
    eapply IH; [exact Hi'|exact Ho2|exact H|exact E1|]. split; [exact E2|split; [exact E3|exact E4]].
Qed.

Lemma C14_shape_lemma levels R : Forall (Forall eddy_ok) levels ->
  level_loop query keep empty_frame (map (fun N => Ok (level_table N)) levels) = Ok R ->
  snapshot_ok R /\ sorted_table (rows R) /\
  forall r, In r (rows R) -> exists N e, In N levels /\ In e N /\ In (with_id r 0) (contour_rows 0 e).
Proof.
  intros Hok H. destruct (loop_good levels levels empty_frame R (incl_refl _) Hok H) as [Hg Hs].
  - split; [intros r []|intros r []].
  - split; [intros r []|]. split; [constructor|]. exists 0%nat. intro i. split; [intros (r & [] & _)|lia].
  - destruct Hs as (_ & Hs & Hc). split; [|split; [eapply good_sorted; eauto|]].
    + split; [exact Hc|]. destruct Hg as [G1 G2]. split; [exact G1|]. split; [intros r Hr; apply (G2 r Hr)|].
      intros r r' Hr Hr'. transitivity 0; [apply (G2 r Hr)|symmetry; apply (G2 r' Hr')].
    + intros r Hr. destruct Hg as [_ G2]. apply (G2 r Hr).
Qed.
End Scan4.

(** A scan keeps eddies whole: the rows of the result are complete contours of detections of the levels, each used once. *)
From Coq Require Import ZifyBool ZifyNat Permutation.
From Verif Require Import M_Base M_Tables S_Tracking S_Levels L_Base L_Tables L_Track L_Step L_Run L_Levels L_Levels2 L_Levels3 L_Levels4.
Open Scope Z_scope.

(** The rows are whole eddies, which are some of [src]. *)
Definition whole (src : list eddy) (rs : list row) : Prop :=
  exists ps rest, Permutation rs (blocks ps) /\ Permutation src (map snd ps ++ rest).

Lemma whole_map g src rs : whole src rs -> whole src (map (fun r => with_id r (g (r_id r))) rs).
Proof.
  intros (ps & rest & A & B). exists (map (fun p => (g (fst p), snd p)) ps), rest. split.
  - rewrite <- blocks_map. apply Permutation_map. exact A.
  - rewrite map_map. exact B.
Qed.
Lemma filter_split {A} (p : A -> bool) l : Permutation l (filter p l ++ filter (fun x => negb (p x)) l).
Proof.
  induction l as [|x l IH]; [constructor|]. cbn. destruct (p x); cbn.
  - apply perm_skip. exact IH.
  - transitivity (x :: filter p l ++ filter (fun x => negb (p x)) l); [apply perm_skip, IH|apply Permutation_middle].
Qed.
Lemma filter_perm {A} (p : A -> bool) l l' : Permutation l l' -> Permutation (filter p l) (filter p l').
Proof.
  induction 1; cbn.
  - constructor.
  - destruct (p x); [apply perm_skip|]; assumption.
  - destruct (p x), (p y); try reflexivity. apply perm_swap.
  - etransitivity; eassumption.
Qed.
Lemma whole_filter g src rs : whole src rs -> whole src (filter (fun r => g (r_id r)) rs).
Proof.
  intros (ps & rest & A & B). exists (filter (fun p => g (fst p)) ps), (map snd (filter (fun p => negb (g (fst p))) ps) ++ rest). split.
  - rewrite <- blocks_filter. apply filter_perm. exact A.
  - rewrite app_assoc, <- map_app. rewrite B. apply Permutation_app_tail, Permutation_map, filter_split.
Qed.
Lemma whole_app s1 s2 a b : whole s1 a -> whole s2 b -> whole (s1 ++ s2) (a ++ b).
Proof.
  intros (ps & rest & A & B) (ps' & rest' & A' & B'). exists (ps ++ ps'), (rest ++ rest'). split.
  - unfold blocks. rewrite flat_map_app. apply Permutation_app; assumption.
  - rewrite B, B', map_app, !app_assoc. apply Permutation_app_tail. rewrite <- !app_assoc. apply Permutation_app_head, Permutation_app_comm.
Qed.
Lemma whole_perm src a b : Permutation a b -> whole src a -> whole src b.
Proof. intros H (ps & rest & A & B). exists ps, rest. split; [rewrite <- H; exact A|exact B]. Qed.
Lemma whole_level N : whole N (rows (level_table N)).
Proof.
  exists (enum N), []. split; [cbn [rows level_table]; rewrite table_enum; reflexivity|]. rewrite enum_snd, app_nil_r. reflexivity.
Qed.

Lemma rename_whole src k v f : whole src (rows f) -> whole src (rows (rename_id k v f)).
Proof.
  intro H. unfold rename_id, set_index. cbn [rows].
  rewrite (map_ext _ (fun r => with_id r ((fun i => if i =? k then v else i) (r_id r)))).
  - apply (whole_map (fun i => if i =? k then v else i)). exact H.
  - intro r. destruct (r_id r =? k); [reflexivity|]. symmetry. apply with_id_id.
Qed.
Lemma drop_whole src ks f f' : drop_ids ks f = Ok f' -> whole src (rows f) -> whole src (rows f').
Proof.
  unfold drop_ids. destruct (existsb _ _); [|discriminate]. intros E H. injection E as <-. cbn [rows].
  apply (whole_filter (fun i => negb (mem i ks))). exact H.
Qed.
Lemma better_whole src p index prev : forall nearest n replaced n' rep',
  better_loop p n index nearest prev replaced = Ok (n', rep') -> whole src (rows n) -> whole src (rows n').
Proof.
  induction nearest as [|d t IH]; intros n replaced n' rep' H Hg; cbn [better_loop] in H.
  - injection H as <- <-. auto.
  - destruct (nth_error index d); [|discriminate]. destruct (loc_check _ p); [|discriminate]. destruct (loc_check _ n); [|discriminate]. cbn [bind] in H.
    destruct (xs_id_index0 _ p); [|discriminate]. destruct (xs_id_index0 _ n); [|discriminate]. cbn [bind] in H.
    destruct (array_gt (map (fun r : row => contour_ellipse_error (r_cols r)) _) _); [|discriminate]. cbn [bind] in H.
    match type of H with bind ?x _ = _ => destruct x as [[]|]; [| |discriminate] end; cbn [bind] in H.
    + eapply IH; [exact H|apply rename_whole; exact Hg].
    + destruct (drop_ids _ n) as [n1|] eqn:Ed; [|discriminate]. cbn [bind] in H. eapply IH; [exact H|]. eapply drop_whole; eauto.
Qed.
Lemma update_whole s1 s2 p n index nearest p' n' : update_better_eddy p n index nearest = Ok (p', n') ->
  whole s1 (rows p) -> whole s2 (rows n) -> whole s1 (rows p') /\ whole s2 (rows n').
Proof.
  unfold update_better_eddy, update_counter. intros H Hp Hn. destruct (zmax (ids p)) as [prev|]; [|discriminate].
  destruct (set_levels _ n) as [n1|] eqn:Es; [|discriminate]. cbn [bind] in H.
  destruct (set_levels_inv _ _ _ Es) as (g & H1 & _ & _).
  destruct (better_loop p n1 index nearest prev []) as [[n2 rep]|] eqn:Eb; [|discriminate]. cbn [bind] in H.
  assert (G : whole s2 (rows n2)) by (eapply better_whole; [exact Eb|]; rewrite H1; apply whole_map; exact Hn).
  destruct rep as [|z rep].
  - injection H as <- <-. auto.
  - destruct (drop_ids (z :: rep) p) as [p2|] eqn:Ed; [|discriminate]. cbn [bind] in H. injection H as <- <-.
    split; [eapply drop_whole; eauto|exact G].
Qed.
Lemma merge_whole s1 s2 keep p n m : merge_reindex keep p n = Ok m -> whole s1 (rows p) -> whole s2 (rows n) -> whole (s1 ++ s2) (rows m).
Proof.
  unfold merge_reindex. intros H Hp Hn. destruct (set_levels _ _) as [f|] eqn:Es; [|discriminate]. cbn [bind] in H. injection H as <-. cbn [rows].
  destruct (set_levels_inv _ _ _ Es) as (g & H1 & _ & _). cbn [set_index rows concat] in H1.
  apply (whole_perm _ _ _ (Permutation_sym (isort_perm le_id_idx (rows f)))). rewrite H1. apply whole_map, whole_app; assumption.
Qed.

Lemma loop_whole query keep levels : forall f R src,
  level_loop query keep f (map (fun N => Ok (level_table N)) levels) = Ok R -> whole src (rows f) -> whole (src ++ List.concat levels) (rows R).
Proof.
  induction levels as [|N levels IH]; intros f R src H Hg; cbn [map level_loop bind List.concat] in *.
  - injection H as <-. rewrite app_nil_r. exact Hg.
  - assert (E0 : forall (X : list row), whole src X -> whole (src ++ N) X).
    { intros X (ps & rest & A & B). exists ps, (rest ++ N). split; [exact A|]. rewrite app_assoc. apply Permutation_app_tail. exact B. }
    rewrite app_assoc. destruct (empty (level_table N)) eqn:En; [eapply IH; [exact H|apply E0, Hg]|].
    destruct (empty f) eqn:Ef.
    { eapply IH; [exact H|]. destruct (whole_level N) as (ps & rest & A & B). exists ps, (rest ++ src). split; [exact A|]. rewrite app_assoc, <- B. apply Permutation_app_comm. }
    destruct (detect_nearest query f (level_table N)) as [[index nearest]|]; [|discriminate]. cbn [bind] in H.
    destruct (update_better_eddy f (level_table N) index nearest) as [[p n]|] eqn:Eu; [|discriminate]. cbn [bind] in H.
    destruct (merge_reindex keep p n) as [m|] eqn:Em; [|discriminate]. cbn [bind] in H.
    destruct (update_whole src N _ _ _ _ _ _ Eu Hg (whole_level N)) as [A B].
    eapply IH; [exact H|]. eapply merge_whole; eauto.
Qed.
Lemma scan_whole query keep levels R :
  level_loop query keep empty_frame (map (fun N => Ok (level_table N)) levels) = Ok R -> whole (List.concat levels) (rows R).
Proof. intro H. apply (loop_whole _ _ _ _ _ [] H). exists [], []. split; reflexivity. Qed.

(** Properties C100-C102: offline runs that are stopped at any moment. *)
From Coq Require Import Ascii String Lia Permutation Sorted.
From Verif Require Import M_Base M_Tables M_Eddy M_Detect M_Store M_Pipeline M_Crash S_Tracking S_Levels S_Pipeline S_Process S_Crash L_Base L_Store L_Pipeline L_Witness P_Store P_Pipeline P_Process.
Open Scope list_scope.
Open Scope Z_scope.

(** *** the view of one path *)
Definition op_path (x : operation) : string := match x with Open_for_writing p => p | Append p _ => p end.
Definition step1 (q : string) (c : option string) (x : operation) : option string :=
  if String.eqb (op_path x) q then match x with Open_for_writing _ => Some EmptyString | Append _ s => match c with Some b => Some (b ++ s)%string | None => None end end else c.
Lemma perform_view fs x q : perform fs x q = step1 q (fs q) x.
Proof.
  destruct x as [p|p s]; unfold perform, step1, write; cbn [op_path]; rewrite ?(String.eqb_sym p q).
  - destruct (String.eqb_spec q p); reflexivity.
  - destruct (String.eqb_spec q p) as [->|E]; destruct (fs p) as [b|] eqn:Eb; try reflexivity.
    + unfold write. rewrite String.eqb_refl. reflexivity.
    + exact Eb.
    + unfold write. destruct (String.eqb_spec q p); [contradiction|reflexivity].
Qed.
Lemma performed_view l : forall fs q, performed fs l q = fold_left (step1 q) l (fs q).
Proof. induction l as [|x l IH]; intros fs q; [reflexivity|]. cbn [performed fold_left]. rewrite IH, perform_view. reflexivity. Qed.
Lemma performed_app a : forall fs b, performed fs (a ++ b) = performed (performed fs a) b.
Proof. induction a as [|x a IH]; intros fs b; [reflexivity|]. cbn [app performed]. apply IH. Qed.
Lemma untouched l q : (forall x, In x l -> op_path x <> q) -> forall c, fold_left (step1 q) l c = c.
Proof.
  induction l as [|x l IH]; intros H c; [reflexivity|]. cbn [fold_left]. rewrite IH by (intros y Hy; apply H; right; exact Hy).
  unfold step1. destruct (String.eqb_spec (op_path x) q) as [E|E]; [|reflexivity]. exfalso. apply (H x); [left; reflexivity|exact E].
Qed.
Lemma opened l q : In (Open_for_writing q) l -> forall c c', fold_left (step1 q) l c = fold_left (step1 q) l c'.
Proof.
  induction l as [|x l IH]; intros H c c'; [destruct H|]. cbn [fold_left]. destruct H as [->|H]; [|apply IH, H].
  unfold step1 at 2 4. cbn [op_path]. rewrite String.eqb_refl. reflexivity.
Qed.
Lemma appends q l : forall b, fold_left (step1 q) (map (Append q) l) (Some b) = Some (b ++ text_of l)%string.
Proof.
  induction l as [|s l IH]; intro b; cbn [map fold_left text_of]; [rewrite app_nil_s; reflexivity|].
  unfold step1 at 2. cbn [op_path]. rewrite String.eqb_refl, IH, app_assoc_s. reflexivity.
Qed.
Lemma text_firstn k l : exists b, text_of l = (text_of (firstn k l) ++ b)%string.
Proof.
  revert k. induction l as [|s l IH]; intros [|k]; cbn [firstn text_of]; try (eexists; reflexivity).
  destruct (IH k) as [b E]. exists b. rewrite E at 1. rewrite app_assoc_s. reflexivity.
Qed.

Section Pieces.
Variable pieces : list row -> list string.
Notation storing := (storing pieces).
Lemma storing_path path fmt f x : In x (storing path fmt f) -> op_path x = snapshot_path path (fst f) fmt.
Proof. unfold M_Crash.storing. intros [<-|H]; [reflexivity|]. apply in_map_iff in H as (s & <- & _). reflexivity. Qed.
Lemma storing_other path fmt files q : ~ In q (map (fun f => snapshot_path path (fst f) fmt) files) -> forall x, In x (flat_map (storing path fmt) files) -> op_path x <> q.
Proof. intros H x Hx E. apply H. apply in_flat_map in Hx as (f & Hf & Hx). apply in_map_iff. exists f. split; [|exact Hf]. rewrite <- E. symmetry. eapply storing_path. exact Hx. Qed.
Lemma storing_opened path fmt files f : In f files -> In (Open_for_writing (snapshot_path path (fst f) fmt)) (flat_map (storing path fmt) files).
Proof. intro H. apply in_flat_map. exists f. split; [exact H|]. left. reflexivity. Qed.
Lemma storing_text path fmt f c : fold_left (step1 (snapshot_path path (fst f) fmt)) (storing path fmt f) c = Some (text_of (pieces (rows (snd f)))).
Proof. unfold M_Crash.storing. cbn [fold_left]. unfold step1 at 2. cbn [op_path]. rewrite String.eqb_refl, appends. reflexivity. Qed.
(** The file of the entry f, when the names are different *)
Lemma stored_text path fmt files f c : NoDup (map fst files) -> In f files ->
  fold_left (step1 (snapshot_path path (fst f) fmt)) (flat_map (storing path fmt) files) c = Some (text_of (pieces (rows (snd f)))).
Proof.
  intros Hn Hf. revert c. induction files as [|g files IH]; [destruct Hf|]. intro c. cbn [flat_map]. rewrite fold_left_app. cbn [map] in Hn. inversion Hn as [|? ? Hg Hn']; subst.
  destruct Hf as [->|Hf]; [|apply IH; assumption]. rewrite storing_text. apply untouched. apply storing_other. intro X. apply in_map_iff in X as (h & E & Hh). apply path_inj in E. apply Hg. rewrite <- E. apply in_map, Hh.
Qed.
Lemma firstn_storing path fmt k files : exists done rest, files = done ++ rest /\ (length (flat_map (storing path fmt) done) <= k)%nat /\
  match rest with [] => firstn k (flat_map (storing path fmt) files) = flat_map (storing path fmt) files
  | f :: _ => exists j, (j < length (storing path fmt f))%nat /\ (k = length (flat_map (storing path fmt) done) + j)%nat /\ firstn k (flat_map (storing path fmt) files) = flat_map (storing path fmt) done ++ firstn j (storing path fmt f) end.
Proof.
  revert k. induction files as [|f files IH]; intro k; [exists [], []; cbn; destruct k; repeat split; lia|]. cbn [flat_map].
  destruct (Nat.lt_ge_cases k (length (storing path fmt f))) as [L|L].
  - exists [], (f :: files). split; [reflexivity|]. split; [cbn; lia|]. exists k. split; [exact L|]. split; [reflexivity|]. rewrite firstn_app. replace (k - length (storing path fmt f))%nat with 0%nat by lia. rewrite firstn_O, app_nil_r. reflexivity.
  - destruct (IH (k - length (storing path fmt f))%nat) as (done & rest & -> & Hl & Hr). exists (f :: done), rest. split; [reflexivity|]. cbn [flat_map]. rewrite app_length. split; [lia|].
    rewrite firstn_app, firstn_all2 by exact L. destruct rest as [|g rest].
    + rewrite Hr. reflexivity.
    + destruct Hr as (j & A & B & C). exists j. split; [exact A|]. split; [lia|]. rewrite C, app_assoc. reflexivity.
Qed.
End Pieces.

(** The files of an offline run have different times. *)
Lemma loop_nodup o levels tf nt : forall ts track files st, NoDup (map fst files ++ ts) -> NoDup (map fst (fst (fst (loop o levels false tf nt ts track files st)))).
Proof.
  induction ts as [|t ts IH]; intros track files st Hn; cbn [loop].
  - rewrite app_nil_r in Hn. exact Hn.
  - assert (Hd : NoDup (map fst files)) by (eapply NoDup_app_l; exact Hn). destruct (snapshot o levels t st) as [[cur|e] st']; [|exact Hd].
    assert (Hr : NoDup (map fst files ++ ts)) by (eapply NoDup_remove_1; exact Hn).
    destruct (empty cur); [apply IH, Hr|]. destruct (empty track); [apply IH, Hr|]. destruct (store_effect _) as [[]|]; [| |exact Hd]; cbv zeta.
    + assert (H2 : NoDup (map fst (files ++ [(t, stamp t cur)]) ++ ts)) by (rewrite map_app, <- app_assoc; exact Hn). destruct (print_check tf t); [apply IH, H2|]. cbn [fst]. eapply NoDup_app_l. exact H2.
    + destruct (print_check tf t); [apply IH, Hr|exact Hd].
Qed.
Lemma times_nodup len t0 tf : NoDup (tt_times len t0 tf).
Proof.
  assert (R : forall a b, NoDup (zrange a b)) by (intros a b; unfold zrange; apply FinFun.Injective_map_NoDup; [intros x y E; lia|apply seq_NoDup]).
  unfold tt_times. destruct tf as [n|]; [destruct (n =? 0)|]; apply R.
Qed.
Lemma files_nodup o levels nt st t0 tf : NoDup (map fst (fst (fst (tracking o t0 tf levels nt false st)))).
Proof.
  unfold tracking. destruct (times o t0 tf) as [ts|e] eqn:E; [|constructor]. apply loop_nodup. cbn [map app]. unfold times in E.
  destruct (t_data o); [injection E as <-; apply times_nodup|]. destruct tf as [n|]; [|discriminate]. destruct (n =? 0); [discriminate|]. assert (X := times_nodup 0 t0 (Some n)). congruence.
Qed.

(** *** C100 *)
(** Whenever an offline run is stopped (and whether or not it would have ended with an exception), the files whose writing had ended are complete, the file being
    written holds the beginning of its text, and nothing else has changed. *)
Theorem C100_files_of_a_stopped_run : forall pieces path o t0 tf levels nt st k fs,
  let files := fst (fst (tracking o t0 tf levels nt false st)) in
  let name := fun t => snapshot_path path t (t_out_format o) in
  let text := fun g => text_of (pieces (rows g)) in
  let disk := stopped_after k fs (operations pieces path o t0 tf levels nt st) in
  exists done rest, files = done ++ rest /\
    (forall t g, In (t, g) done -> complete disk (name t) (text g)) /\
    match rest with
    | [] => forall q, ~ In q (map name (map fst done)) -> disk q = fs q
    | (t, g) :: _ => (k < length (flat_map (fun tg => ""%string :: pieces (rows (snd tg))) (done ++ [(t, g)])))%nat /\
        (beginning disk (name t) (text g) \/ disk (name t) = fs (name t)) /\
        forall q, ~ In q (map name (map fst (done ++ [(t, g)]))) -> disk q = fs q
    end.
Proof.
  intros pieces path o t0 tf levels nt st k fs files name text disk. pose proof (files_nodup o levels nt st t0 tf) as Hn. fold files in Hn.
  destruct (firstn_storing pieces path (t_out_format o) k files) as (done & rest & E & Hl & Hr). exists done, rest. split; [exact E|].
  assert (Nn : forall l, map name (map fst l) = map (fun f : Z * frame => snapshot_path path (fst f) (t_out_format o)) l) by (intro l; rewrite map_map; reflexivity).
  assert (Hlen : forall l, length (flat_map (fun tg : Z * frame => ""%string :: pieces (rows (snd tg))) l) = length (flat_map (storing pieces path (t_out_format o)) l)).
  { induction l as [|f l IH]; [reflexivity|]. cbn [flat_map]. rewrite !app_length, IH. f_equal. unfold storing. cbn [length]. rewrite map_length. reflexivity. }
  assert (Hd : NoDup (map fst done)) by (rewrite E, map_app in Hn; eapply NoDup_app_l; exact Hn).
  assert (D : forall q, disk q = fold_left (step1 q) (firstn k (flat_map (storing pieces path (t_out_format o)) files)) (fs q)) by (intro q; apply performed_view).
  destruct rest as [|[t g] rest].
  - rewrite Hr in D. rewrite app_nil_r in E. rewrite E in D. split.
    + intros t g H. unfold complete. rewrite D. apply (stored_text pieces path (t_out_format o) done (t, g)); assumption.
    + intros q Hq. rewrite D. apply untouched. eapply storing_other. rewrite <- Nn. exact Hq.
  - destruct Hr as (j & Hj & -> & Ek). rewrite Ek in D. assert (Ht : ~ In t (map fst done)).
    { rewrite E, map_app in Hn. cbn [map fst] in Hn. apply NoDup_remove_2 in Hn. intro X. apply Hn, in_or_app. left. exact X. }
    assert (Hf : forall x, In x (firstn j (storing pieces path (t_out_format o) (t, g))) -> op_path x = name t).
    { intros x Hx. apply (storing_path pieces path (t_out_format o) (t, g)). rewrite <- (firstn_skipn j). apply in_or_app. left. exact Hx. }
    assert (Hp : ~ In (name t) (map (fun f : Z * frame => snapshot_path path (fst f) (t_out_format o)) done)).
    { intro X. apply in_map_iff in X as (h & X & Hh). apply path_inj in X. apply Ht. rewrite <- X. apply in_map, Hh. }
    split; [|split; [|split]].
    + intros u h H. unfold complete. rewrite D, fold_left_app, untouched.
      * apply (stored_text pieces path (t_out_format o) done (u, h)); assumption.
      * intros x Hx X. apply Hf in Hx. rewrite X in Hx. apply path_inj in Hx. subst u. apply Ht. apply (in_map fst) in H. exact H.
    + rewrite Hlen, flat_map_app, app_length. cbn [flat_map]. rewrite app_nil_r. lia.
    + rewrite D, fold_left_app, (untouched (flat_map _ _)) by (eapply storing_other; exact Hp). destruct j as [|j]; [right; reflexivity|left].
      unfold beginning. rewrite D, fold_left_app, (untouched (flat_map _ _)) by (eapply storing_other; exact Hp). unfold storing. cbn [firstn fold_left fst snd]. unfold step1 at 2. cbn [op_path].
      change (snapshot_path path t (t_out_format o)) with (name t). rewrite String.eqb_refl, firstn_map, appends. destruct (text_firstn j (pieces (rows g))) as [b Eb]. exists (text_of (firstn j (pieces (rows g)))), b. split; [exact Eb|reflexivity].
    + intros q Hq. rewrite D, fold_left_app. rewrite map_app, map_app in Hq. rewrite (untouched (firstn _ _)).
      * apply untouched. eapply storing_other. rewrite <- Nn. intro X. apply Hq, in_or_app. left. exact X.
      * intros x Hx X. apply Hf in Hx. apply Hq, in_or_app. right. left. cbn [map fst]. congruence.
Qed.
Print Assumptions C100_files_of_a_stopped_run.

(** *** C101 *)
(** Running the same run again after it was stopped leaves the directory an uninterrupted run leaves. *)
Theorem C101_run_again : forall pieces path o t0 tf levels nt st st' k fs, five_fitted o -> process st -> process st' ->
  forall q, performed (stopped_after k fs (operations pieces path o t0 tf levels nt st)) (operations pieces path o t0 tf levels nt st') q =
            performed fs (operations pieces path o t0 tf levels nt st) q.
Proof.
  intros pieces path o t0 tf levels nt st st' k fs H5 Hp Hp' q. apply process_settled in Hp, Hp'.
  assert (E : operations pieces path o t0 tf levels nt st' = operations pieces path o t0 tf levels nt st).
  { unfold operations. destruct (tracking_stateless o H5 t0 tf levels nt false st Hp) as [-> _], (tracking_stateless o H5 t0 tf levels nt false st' Hp') as [-> _]. reflexivity. }
  rewrite E. clear E. unfold stopped_after. rewrite !performed_view. unfold operations. set (files := fst (fst (tracking _ _ _ _ _ _ _))).
  destruct (in_dec String.string_dec q (map (fun f : Z * frame => snapshot_path path (fst f) (t_out_format o)) files)) as [H|H].
  - apply in_map_iff in H as (f & <- & H). apply opened. apply storing_opened. exact H.
  - rewrite !untouched; try (eapply storing_other; exact H); [reflexivity|]. intros x Hx. apply (storing_other pieces _ _ _ _ H x). rewrite <- (firstn_skipn k). apply in_or_app. left. exact Hx.
Qed.
Print Assumptions C101_run_again.

(** *** C102 *)
(** C102 is false: a run that continues at the step whose file is incomplete (with t0 = that step) leaves this file as it is. *)
Theorem C102_continue_at_the_step_refuted : forall pieces path o levels nt st t tf fs,
  five_fitted o -> process st -> 0 <= t < tf -> (t_out_format o = "csv" \/ t_out_format o = "json")%string ->
  (forall u, t <= u < tf -> exists R, alone o levels u R) -> has_eddies o levels t ->
  let name := snapshot_path path t (t_out_format o) in
  performed fs (operations pieces path o t (Some tf) (Some levels) nt st) name = fs name.
Proof.
  intros pieces path o levels nt st t tf fs H5 Hp Ht Hf Ha (R0 & HR0 & Hne) name.
  destruct (C87_offline_files o levels nt st t tf t R0 H5 Hp) as (files & T & A & _ & B & _); try assumption; try lia; try (intros u Hu; lia).
  unfold operations. unfold run_returns in A. rewrite A. cbn [fst]. rewrite performed_view. apply untouched. apply storing_other. intro X. apply in_map_iff in X as (f & E & Hx). apply path_inj in E.
  assert (In (fst f) (map fst files)) as Y by (apply in_map, Hx). rewrite E in Y. apply B in Y. lia.
Qed.
Print Assumptions C102_continue_at_the_step_refuted.
(** What does hold: continuing at a step s' that has eddies, when the files of the steps up to s' are complete, leaves the directory an uninterrupted run leaves. *)
Theorem C102_continue_one_step_earlier_partial : forall pieces path o levels nt nt' st st' t0 tf s s' k fs,
  five_fitted o -> process st -> process st' -> 0 <= t0 -> (t_out_format o = "csv" \/ t_out_format o = "json")%string ->
  (forall t, t0 <= t < tf -> exists R, alone o levels t R) ->
  t0 <= s < tf -> has_eddies o levels s -> (forall t, t0 <= t < s -> ~ has_eddies o levels t) ->
  s <= s' < tf -> has_eddies o levels s' ->
  let whole := operations pieces path o t0 (Some tf) (Some levels) nt st in
  (forall t, s < t <= s' -> stopped_after k fs whole (snapshot_path path t (t_out_format o)) = performed fs whole (snapshot_path path t (t_out_format o))) ->
  forall q, performed (stopped_after k fs whole) (operations pieces path o s' (Some tf) (Some levels) nt' st') q = performed fs whole q.
Proof.
  intros pieces path o levels nt nt' st st' t0 tf s s' k fs H5 Hp Hp' H0 Hf Ha Hs (R0 & HR0 & Hne) Hn Hs' (R1 & HR1 & Hne1) whole Hk q.
  destruct (C87_offline_files o levels nt st t0 tf s R0 H5 Hp) as (F & T & A & _ & B & B1 & C); try assumption.
  destruct (C87_offline_files o levels nt' st' s' tf s' R1 H5 Hp') as (F' & T' & A' & _ & B' & B1' & C'); try assumption; try lia; try (intros u Hu; apply Ha; lia); try (intros u Hu; lia).
  assert (N : NoDup (map fst F)). { pose proof (files_nodup o (Some levels) nt st t0 (Some tf)) as X. unfold run_returns in A. rewrite A in X. exact X. }
  assert (N' : NoDup (map fst F')). { pose proof (files_nodup o (Some levels) nt' st' s' (Some tf)) as X. unfold run_returns in A'. rewrite A' in X. exact X. }
  unfold whole, stopped_after, operations in *. unfold run_returns in A, A'. rewrite A, A' in *. cbn [fst] in *.
  set (nm := fun f : Z * frame => snapshot_path path (fst f) (t_out_format o)).
  destruct (in_dec String.string_dec q (map nm F')) as [H|H].
  - apply in_map_iff in H as ([t g] & <- & H). unfold nm. cbn [fst]. rewrite !performed_view. rewrite (stored_text pieces path (t_out_format o) F' (t, g)) by assumption.
    assert (Ht := in_map fst _ _ H). cbn [fst] in Ht. apply B' in Ht. destruct Ht as [Ht Et]. assert (Hin : In t (map fst F)) by (apply B; split; [lia|exact Et]).
    apply in_map_iff in Hin as ([t' g0] & X & Hin). cbn [fst] in X. subst t'. rewrite (stored_text pieces path (t_out_format o) F (t, g0)) by assumption. cbn [snd].
    destruct (C _ _ Hin) as (R & HR & ->), (C' _ _ H) as (R' & HR' & ->). unfold alone, run_returns in HR, HR'. rewrite HR in HR'. injection HR' as <-. reflexivity.
  - rewrite (performed_view _ _ q), (untouched _ q) by (apply storing_other; exact H). destruct (in_dec String.string_dec q (map nm F)) as [G|G].
    + apply in_map_iff in G as ([t g] & <- & G). unfold nm. cbn [fst]. apply Hk. assert (Ht := in_map fst _ _ G). cbn [fst] in Ht. apply B in Ht. destruct Ht as [Ht Et]. split; [lia|].
      destruct (Z_le_gt_dec t s') as [L|L]; [exact L|]. exfalso. apply H. assert (X : In t (map fst F')) by (apply B'; split; [lia|exact Et]). apply in_map_iff in X as ([t' g'] & X & Y). cbn [fst] in X. subst t'. apply in_map_iff. exists (t, g'). split; [reflexivity|exact Y].
    + rewrite !performed_view, !untouched; try (apply storing_other; exact G); [reflexivity|]. intros x Hx. apply (storing_other pieces _ _ _ _ G x). rewrite <- (firstn_skipn k). apply in_or_app. left. exact Hx.
Qed.
Print Assumptions C102_continue_one_step_earlier_partial.

(** A case: steps 0, 1, 2 and 3 have eddies; the text of a table has one piece for every row.  The run is stopped while it writes the file of step 2, of which 3 of 13 rows are on
    disk; continuing at step 2 leaves it so, continuing at step 1 completes it. *)
Definition crash_data := [spots [(3, 3)]; spots [(3, 4)]; spots [(4, 4)]; spots [(5, 4)]].
Definition row_pieces (rs : list row) : list string := map (fun _ => "x"%string) rs.
Definition lengths (fs : filesystem string) : list (option nat) := map (fun t => option_map String.length (fs (snapshot_path "/d" t "csv"))) [0; 1; 2; 3].
Example C102_case : let o := ex_tracker crash_data in let whole := operations row_pieces "/d" o 0 (Some 4) (Some ex_levels) 5 initial_state in
  five_fitted o /\ (forall t, 0 <= t < 4 -> exists R, alone o ex_levels t R) /\ (forall t, 0 <= t < 4 -> has_eddies o ex_levels t) /\
  lengths (performed (fun _ => None) whole) = [None; Some 13%nat; Some 13%nat; Some 13%nat] /\
  let disk := stopped_after 18 (fun _ => None) whole in
  lengths disk = [None; Some 13%nat; Some 3%nat; None] /\
  lengths (performed disk (operations row_pieces "/d" o 2 (Some 4) (Some ex_levels) 5 initial_state)) = [None; Some 13%nat; Some 3%nat; Some 13%nat] /\
  lengths (performed disk (operations row_pieces "/d" o 1 (Some 4) (Some ex_levels) 5 initial_state)) = [None; Some 13%nat; Some 13%nat; Some 13%nat].
Proof.
  cbv zeta. set (o := ex_tracker _). split; [apply ex_five|]. split; [|split; [|split; [|split; [|split]]]].
  - intros t Ht. assert (t = 0 \/ t = 1 \/ t = 2 \/ t = 3) as [->|[->|[->| ->]]] by lia; eexists; apply returns_of; try (eexists; vm_compute; reflexivity); vm_compute; reflexivity.
  - intros t Ht. assert (t = 0 \/ t = 1 \/ t = 2 \/ t = 3) as [->|[->|[->| ->]]] by lia; (eapply ex_step; [eexists|]; vm_compute; reflexivity).
  - vm_compute. reflexivity.
  - vm_compute. reflexivity.
  - vm_compute. reflexivity.
  - vm_compute. reflexivity.
Qed.

(** Snapshots, NaN vertices, similarity, records. *)
From Coq Require Import Lia.
From Verif Require Import M_Base M_Tables M_Area M_Eddy M_Detect S_Tracking S_Levels S_Detect L_Base L_Eddy L_Detect L_Levels L_Detect2 L_Detect3.
Open Scope Z_scope.

Lemma clean_app h k st st1 st2 RD : clean h st st1 -> run k st1 = (Ok RD, st2) -> clean (h ++ [k]) st st2.
Proof.
  revert st. induction h as [|k0 h IH]; intros st H Hr; cbn in *.
  - subst st1. exists RD, st2. auto.
  - destruct H as (RD0 & st0 & H0 & H1). exists RD0, st0. split; [exact H0|]. apply IH; assumption.
Qed.

Section Snap.
Variable query : list (Q * Q) -> list (Q * Q) -> list (Q * nat).
Variable keep : bool.
Variable s : setting.
Variable contours_at : num -> list contour.
Hypothesis prop : forall l, proper (mkCall s l (contours_at l)).
Definition result_at (l : num) : res frame := do (R, _) <- fst (run (mkCall s l (contours_at l)) initial_state); Ok R.

Lemma snapshot_loop_eq ls : forall h st joint, Forall proper h -> clean h initial_state st ->
  fst (snapshot_loop query keep (fun l => analyse s l (contours_at l)) joint ls st) = level_loop query keep joint (map result_at ls).
Proof.
  induction ls as [|l ls IH]; intros h st joint Hh Hc; [reflexivity|].
  cbn [snapshot_loop map level_loop]. assert (H := run_state_independent h st (mkCall s l (contours_at l)) Hh Hc (prop l)).
  unfold result_at at 1. 
  change (analyse s l (contours_at l) st) with (run (mkCall s l (contours_at l)) st).
  destruct (run (mkCall s l (contours_at l)) st) as [[[R D]|x] st'] eqn:Er; cbn [fst] in H;
  destruct (run (mkCall s l (contours_at l)) initial_state) as [[[R' D']|x'] st'']; cbn [fst] in *; try contradiction.
  - subst R'. cbn [bind]. assert (Hh' : Forall proper (h ++ [mkCall s l (contours_at l)])) by (apply Forall_app; split; [exact Hh|repeat constructor; apply (prop l)]).
    assert (Hc' := clean_app _ _ _ _ _ _ Hc Er).
    destruct (empty R); [apply (IH _ _ _ Hh' Hc')|]. destruct (empty joint); [apply (IH _ _ _ Hh' Hc')|].
    destruct (detect_nearest query joint R) as [[ix nr]|e]; cbn [bind]; [|reflexivity].
    destruct (update_better_eddy joint R ix nr) as [[j c]|e]; cbn [bind]; [|reflexivity].
    destruct (merge_reindex keep j c) as [m|e]; cbn [bind]; [|reflexivity]. apply (IH _ _ _ Hh' Hc').
  - subst x'. reflexivity.
Qed.
Lemma level_loop_err lv e : In (Err e) lv -> forall joint, exists e', level_loop query keep joint lv = Err e'.
Proof.
  induction lv as [|l lv IH]; intros H joint; [destruct H|]. destruct H as [->|H]; [eexists; reflexivity|].
  cbn [level_loop]. destruct l as [cur|e0]; cbn [bind]; [|eexists; reflexivity].
  destruct (empty cur); [apply IH, H|]. destruct (empty joint); [apply IH, H|].
  destruct (detect_nearest query joint cur) as [[ix nr]|e1]; cbn [bind]; [|eexists; reflexivity].
  destruct (update_better_eddy joint cur ix nr) as [[j c]|e1]; cbn [bind]; [|eexists; reflexivity].
  destruct (merge_reindex keep j c) as [m|e1]; cbn [bind]; [|eexists; reflexivity]. apply IH, H.
Qed.
Lemma results ls :
  (exists NS, Forall2 (fun l N => exists fs, fates (mkCall s l (contours_at l)) fs /\ N = kept fs) ls NS /\
              map result_at ls = map (fun N => Ok (level_table N)) NS) \/
  (exists l c e, In l ls /\ In c (contours_at l) /\ does_raise s c e /\ In (Err e) (map result_at ls)).
Proof.
  induction ls as [|l ls IH]; [left; exists []; split; [constructor|reflexivity]|].
  assert (H := run_clean [] initial_state (mkCall s l (contours_at l)) (Forall_nil _) eq_refl (prop l)).
  unfold result_at. destruct (run (mkCall s l (contours_at l)) initial_state) as [[[R D]|x] st'] eqn:Er.
  - destruct H as (F & fs & _ & Hf & -> & _). destruct IH as [(NS & A & B)|(l' & c & e & A & B & C & E)].
    + left. exists (kept fs :: NS). split; [constructor; [exists fs; auto|exact A]|]. cbn [map]. rewrite Er. cbn [fst bind]. f_equal. exact B.
    + right. exists l', c, e. split; [right; exact A|]. split; [exact B|]. split; [exact C|]. cbn [map]. right. exact E.
  - destruct H as (pre & c & post & fs & E & _ & Hr). right. exists l, c, x. split; [left; reflexivity|]. cbn [c_contours] in E.
    split; [rewrite E; apply in_or_app; right; left; reflexivity|]. split; [exact Hr|]. cbn [map]. rewrite Er. left; reflexivity.
Qed.
End Snap.

Lemma nonzero_selects ls : selects (fun x => ~ zero x) ls (nonzero_levels ls).
Proof.
  induction ls as [|x ls IH]; [constructor|]. unfold nonzero_levels. cbn [filter]. fold (nonzero_levels ls).
  destruct (neqb x (Num 0)) eqn:E; cbn [negb].
  - apply sel_drop; [|exact IH]. intro H. apply H. destruct x as [|q]; [discriminate|]. exists q. split; [reflexivity|]. apply Qeq_bool_iff. exact E.
  - apply sel_keep; [|exact IH]. intros (q & -> & Hq). cbn in E. apply Qeq_bool_iff in Hq. congruence.
Qed.
Lemma selects_unique P l l1 l2 : selects P l l1 -> selects P l l2 -> l1 = l2.
Proof.
  intro H. revert l2. induction H; intros l2 H2; inversion H2; subst; try contradiction; try reflexivity.
  - f_equal. apply IHselects. assumption.
  - apply IHselects. assumption.
Qed.

(** *** NaN *)
Lemma sum_nan f (Hf : nan_op2 f) l : forall a, In NaN l \/ a = NaN -> fold_left f l a = NaN.
Proof.
  induction l as [|x l IH]; intros a H; cbn.
  - destruct H as [[]|H]; exact H.
  - apply IH. destruct H as [[->|H]| ->]; [right; apply Hf|left; exact H|right; apply Hf].
Qed.
Section Nan.
Variable o : fops num.
Hypothesis S : nan_strict o.
Definition bad (p : num * num) : Prop := fst p = NaN \/ snd p = NaN.
Ltac st := destruct S as (Sadd & Ssub & Smul & Sdiv & Smod & Satan & Ssin & Scos & Ssqrt & Sabs);
  repeat first [rewrite Ssin | rewrite Scos | rewrite Ssqrt | rewrite Sabs
    | rewrite (proj1 (Sadd _)) | rewrite (proj2 (Sadd _)) | rewrite (proj1 (Ssub _)) | rewrite (proj2 (Ssub _))
    | rewrite (proj1 (Smul _)) | rewrite (proj2 (Smul _)) | rewrite (proj1 (Sdiv _)) | rewrite (proj2 (Sdiv _))
    | rewrite (proj1 (Smod _)) | rewrite (proj2 (Smod _)) | rewrite (proj1 (Satan _)) | rewrite (proj2 (Satan _))]; try reflexivity.
Lemma azimuth_bad p : bad p -> azimuth o p = NaN.
Proof. destruct p as [x y]. intros [H|H]; cbn in H; subst; unfold azimuth, deg2rad; cbn [fst snd]; st. Qed.
Lemma integrand_bad p q : bad p \/ bad q -> integrand o p q = NaN.
Proof.
  intros [H|H]; unfold integrand; rewrite (azimuth_bad _ H); st.
Qed.
Lemma integrands_bad l : (2 <= length l)%nat -> Exists bad l -> In NaN (integrands o l).
Proof.
  induction l as [|p [|q l] IH]; intros Hl H; cbn in Hl; try lia.
  change (integrands o (p :: q :: l)) with (integrand o p q :: integrands o (q :: l)).
  inversion H as [? ? Hp|? ? Hr]; subst; [left; apply integrand_bad; left; exact Hp|].
  inversion Hr as [? ? Hq|? ? Hr']; subst; [left; apply integrand_bad; right; exact Hq|].
  right. apply IH; [destruct l; [inversion Hr'|cbn; lia]|exact Hr].
Qed.
Lemma area_bad l : (2 <= length l)%nat -> Exists bad l -> enclosed_area o l = NaN.
Proof.
  intros Hl H. unfold enclosed_area, area_latlon_polygon. 
  rewrite (sum_nan (f_add o)); [|apply S|left; apply integrands_bad; assumption]. st.
Qed.
End Nan.
Lemma nan_not_accepted s c : nan_strict (s_flops s) -> c <> [] -> Exists bad c -> ~ is_accepted s c.
Proof.
  intros Hs Hc Hb [Hnd Ha].
  assert (Hl : (2 <= length c)%nat) by (destruct c as [|p [|q c]]; [congruence|exfalso; apply Hnd, single_degenerate|cbn; lia]).
  specialize (Ha _ (or_intror (or_introl eq_refl))). cbn [snd] in Ha. unfold area_check in Ha.
  destruct (s_fit_ellipse s c) as [f|]; cbn [bind] in Ha; [|discriminate].
  rewrite (area_bad _ Hs c Hl Hb) in Ha. cbn in Ha. discriminate.
Qed.

(** *** rows of a table *)
Lemma table_In E r : In r (table E) -> exists e, In e E /\ In (r_cols r) e.
Proof.
  unfold table. intro H. apply in_flat_map in H. destruct H as ((k & e) & Hke & Hr). apply in_combine_r in Hke. exists e. split; [exact Hke|].
  unfold contour_rows in Hr. apply in_map_iff in Hr. destruct Hr as ((i & c) & <- & Hic). apply in_combine_r in Hic. exact Hic.
Qed.
Lemma kept_In k fs e : fates k fs -> In e (kept fs) -> exists c, In c (c_contours k) /\ is_judged (c_setting k) (c_level k) c (Kept e).
Proof.
  unfold fates. generalize (c_contours k). intros cs H. induction H as [|c f cs fs Hf H IH]; intro He; [destruct He|].
  unfold kept in He. cbn [flat_map] in He. apply in_app_or in He. destruct He as [He|He].
  - destruct f as [|e0|r]; cbn in He; try contradiction. destruct He as [->|[]]. exists c. split; [left; reflexivity|exact Hf].
  - destruct (IH He) as (c' & A & B). exists c'. split; [right; exact A|exact B].
Qed.
Lemma Forall2_length {A B} (P : A -> B -> Prop) l m : Forall2 P l m -> length l = length m.
Proof. induction 1; cbn; [reflexivity|f_equal; assumption]. Qed.
Arguments Forall2_length {A B P l m}.

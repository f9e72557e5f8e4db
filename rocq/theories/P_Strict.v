(** C143: stricter identification criteria *)
From Coq Require Import Lia Lqa Permutation.
From Verif Require Import M_Base M_Tables M_Area M_Eddy M_Detect M_Cntr M_Extract M_Window M_Pipeline S_Cntr S_Tracking S_Levels S_Detect S_Pipeline S_Process S_Strict
  L_Base L_Levels L_Levels2 L_Levels3 L_Track L_Step L_Run L_Run2 L_TrackProps L_Detect3 L_Detect4 L_Pipeline L_Witness L_Window4 P_Cntr P_Detect P_Levels P_Tracking P_Pipeline P_Process P_Levels2.
Open Scope Z_scope.

(** One level of one step: the judgements of its contours *)
Lemma one_level_alone o t x R : five_fitted o -> 0 <= t -> ~ zero x -> alone o [x] t R ->
  exists f cs fs, data2track o t = Ok (Some f) /\ contours_at o (Some f) x = Ok cs /\ Forall (fun c => c <> []) cs /\ Forall2 (is_judged (settings o f x) x) cs fs /\ rows R = map (at_time t) (table (kept fs)).
Proof.
  intros H5 Ht Hx H. destruct (alone_inv _ _ _ _ H5 Ht H) as (g & Hg & Er). unfold detect_of, snapshot in Hg. destruct (data2track o t) as [d|] eqn:Ed; [|discriminate]. unfold detect_snapshot, nonzero_levels in Hg. cbn [filter] in Hg.
  assert (Nx : negb (neqb x (Num 0)) = true).
  { destruct (neqb x (Num 0)) eqn:E; [|reflexivity]. exfalso. apply Hx. destruct x as [|q]; [discriminate|]. exists q. split; [reflexivity|]. cbn in E. apply Qeq_bool_iff in E. exact E. }
  rewrite Nx in Hg. cbn [snapshot_loop] in Hg. unfold detect_level in Hg. destruct (contours_at o d x) as [cs|e] eqn:Ec; [|discriminate].
  destruct (contours_at_spec _ _ _ _ Ec) as (f & -> & _ & _ & Hn). exists f, cs.
  change (detect_one_level (t_flops o) (t_rossby o) (t_fit_ellipse o) (t_eccentricity o) (t_similarity o) (data_in_contour (t_tree o) (t_X o) (t_Y o) f) (fitted o f x) x (t_criteria o) (t_skip_gaussian_fit o) cs initial_state)
    with (analyse (settings o f x) x cs initial_state) in Hg.
  assert (J := C18_every_contour_judged (settings o f x) x cs (settings_five o f x H5) Hn). destruct (analyse (settings o f x) x cs initial_state) as [[[cur D]|e] s]; [|discriminate]. cbn [fst] in J. destruct J as (fs & HF & -> & _).
  exists fs. split; [reflexivity|]. split; [exact Ec|]. split; [exact Hn|]. split; [exact HF|]. rewrite Er. f_equal.
  destruct (empty (level_table (kept fs))) eqn:Ee; cbn [empty_frame empty] in Hg; cbn in Hg; assert (Eg := f_equal (fun r => match r with Ok g => rows g | Err _ => [] end) Hg); cbn in Eg; rewrite <- Eg; [|reflexivity].
  apply empty_true in Ee. cbn [level_table rows] in Ee. rewrite Ee. reflexivity.
Qed.

Lemma nle_trans a b c : at_most b c -> nle a b = true -> nle a c = true.
Proof. intros (p & q & -> & -> & L) H. destruct a as [|a]; [discriminate|]. cbn in *. apply Qle_bool_iff in H. apply Qle_bool_iff. lra. Qed.
Lemma ngt_lax a b c : at_most b c -> ngt a b = false -> ngt a c = false.
Proof.
  intros (p & q & -> & -> & L) H. destruct a as [|a]; [reflexivity|]. unfold ngt, nlt in *. apply Bool.negb_false_iff in H. apply Bool.negb_false_iff. apply Qle_bool_iff in H. apply Qle_bool_iff. lra.
Qed.
Lemma nlt_lax a b c : at_most c b -> nlt a b = false -> nlt a c = false.
Proof.
  intros (p & q & -> & -> & L) H. destruct a as [|a]; [reflexivity|]. unfold nlt in *. apply Bool.negb_false_iff in H. apply Bool.negb_false_iff. apply Qle_bool_iff in H. apply Qle_bool_iff. lra.
Qed.
Section Lax.
Variable area radius : contour -> num.
Variable rossby : num -> num.
Variable fit : contour -> res (contour * (num * num * num)).
Variable ecc : num -> num -> num.
Variable sim : contour -> contour -> res num.
Variable dat : contour -> res (num * (num * num * num)).
Variable gau : contour -> res (list num * list contour).
Variables k k' : criteria.
Hypothesis Hs : stricter k k'.
Hypothesis Hr : rossby_not_negative rossby.
Lemma size_lax c : size_check radius rossby k' c = Ok true -> size_check radius rossby k c = Ok true.
Proof using Hs Hr.
  destruct Hs as ((a & b & E1 & E2 & L) & _). unfold size_check. rewrite E1, E2. intro E. assert (E' : negb (ngt (radius c) (nmul (Num a) (rossby (snd (centre c))))) = true) by congruence. clear E. f_equal. apply Bool.negb_true_iff in E'. apply Bool.negb_true_iff.
  destruct (rossby (snd (centre c))) as [|q] eqn:Eq; [destruct (radius c); reflexivity|]. eapply ngt_lax; [|exact E']. exists (a * q)%Q, (b * q)%Q. split; [reflexivity|]. split; [reflexivity|]. apply Qmult_le_compat_r; [exact L|exact (Hr _ _ Eq)].
Qed.
Lemma area_lax c : area_check area fit k' c = Ok true -> area_check area fit k c = Ok true.
Proof using Hs.
  destruct Hs as (_ & _ & _ & (a & b & E1 & E2 & L)). unfold area_check. rewrite E1, E2. destruct (fit c) as [[el ps]|e]; [|discriminate]. cbn [bind fst]. intro E. f_equal.
  assert (E' : nle (nabs (nsub (area c) (area el))) (nadd (Num (1 # 100000000)) (nmul (nmul (Num (1 # 10)) (Num a)) (nabs (area el)))) = true) by congruence. clear E.
  destruct (area el) as [|v]; [destruct (area c); discriminate|]. eapply nle_trans; [|exact E']. unfold nabs, nmul, nadd. eexists _, _. split; [reflexivity|]. split; [reflexivity|].
  pose proof (Qabs_nonneg v) as P. assert ((1 # 10) * a * Qabs v <= (1 # 10) * b * Qabs v)%Q by (apply Qmult_le_compat_r; [lra|assumption]). lra.
Qed.
Lemma ecc_lax c : eccentricity_check fit ecc k' c = Ok true -> eccentricity_check fit ecc k c = Ok true.
Proof using Hs.
  destruct Hs as (_ & He & _). unfold eccentricity_check. destruct (fit c) as [[el ps]|e]; [|discriminate]. cbn [bind]. intro E. f_equal. assert (E' : ngt (ecc (fst (fst (snd (el, ps)))) (snd (fst (snd (el, ps))))) (c_eccentricity k') = false) by (apply Bool.negb_true_iff; congruence). apply Bool.negb_true_iff. eapply ngt_lax; eassumption.
Qed.
Lemma sim_lax c : similarity_check fit sim k' c = Ok true -> similarity_check fit sim k c = Ok true.
Proof using Hs.
  destruct Hs as (_ & _ & _ & He). unfold similarity_check. destruct (fit c) as [[el ps]|e]; [|discriminate]. cbn [bind]. destruct (sim c (fst (el, ps))) as [m|e]; [|discriminate]. cbn [bind]. intro E. f_equal. assert (E' : ngt m (c_ellipse_fit k') = false) by (apply Bool.negb_true_iff; congruence). apply Bool.negb_true_iff. eapply ngt_lax; eassumption.
Qed.
Lemma gauss_lax c : gauss_check sim gau k' c = Ok true -> gauss_check sim gau k c = Ok true.
Proof using Hs.
  destruct Hs as (_ & _ & He & _). unfold gauss_check. destruct (gau c) as [[g gc]|e]; [|discriminate]. cbn [bind]. destruct (sim c (List.concat (snd (g, gc)))) as [m|e]; [|discriminate]. cbn [bind]. intro E. f_equal. assert (E' : nlt m (c_gaussian_fit k') = false) by (apply Bool.negb_true_iff; congruence). apply Bool.negb_true_iff. eapply nlt_lax; eassumption.
Qed.
Lemma accepted_mono b c : accepted area radius rossby fit ecc sim dat gau k' b c -> accepted area radius rossby fit ecc sim dat gau k b c.
Proof using Hs Hr.
  intros [Hd HC]. split; [exact Hd|]. apply Forall_forall. apply Forall_forall in HC. unfold checks in *. apply Forall_app in HC. destruct HC as [HA HB]. apply Forall_app. split.
  - inversion_clear HA as [|? ? A1 F1]. inversion_clear F1 as [|? ? A2 F2]. inversion_clear F2 as [|? ? A3 F3]. inversion_clear F3 as [|? ? A4 F4]. inversion_clear F4 as [|? ? A5 F5].
    constructor; [apply size_lax, A1|]. constructor; [apply area_lax, A2|]. constructor; [apply ecc_lax, A3|]. constructor; [apply sim_lax, A4|]. constructor; [exact A5|]. constructor.
  - destruct b; [constructor|]. inversion_clear HB as [|? ? A1 F1]. inversion_clear F1 as [|? ? A2 F2]. constructor; [exact A1|]. constructor; [apply gauss_lax, A2|]. constructor.
Qed.
End Lax.
Lemma accepted_lax o c' f x c : stricter (t_criteria o) c' -> rossby_not_negative (t_rossby o) -> is_accepted (settings (with_criteria c' o) f x) c -> is_accepted (settings o f x) c.
Proof. intros Hs Hr. unfold is_accepted. exact (accepted_mono _ _ _ _ _ _ _ _ _ _ Hs Hr _ c). Qed.

Lemma kept_some o c' f x cs fs fs' : stricter (t_criteria o) c' -> rossby_not_negative (t_rossby o) -> Forall2 (is_judged (settings o f x) x) cs fs -> Forall2 (is_judged (settings (with_criteria c' o) f x) x) cs fs' -> some_of (kept fs') (kept fs).
Proof.
  intros Hs Hr F. revert fs'. induction F as [|c v cs fs J F IH]; intros fs' F'; inversion F' as [|? v' ? fs0 J' F0]; subst; [constructor|]. specialize (IH _ F0). unfold kept in *. cbn [flat_map].
  destruct v' as [|e|r]; cbn [app].
  - destruct v; [exact IH| |exact IH]. apply some_drop, IH.
  - assert (v = Kept e) as ->; [|apply some_keep, IH]. eapply judged_unique; [exact J|]. destruct J' as [A B]. split; [eapply accepted_lax; eassumption|exact B].
  - destruct v; [exact IH| |exact IH]. apply some_drop, IH.
Qed.

(** C143, companion: at one level, the eddies of a step that stricter criteria leave are some of those found before, with the same
    columns and in the same order. *)
Theorem C143_stricter_criteria : forall o c' t level R R', five_fitted o -> 0 <= t -> stricter (t_criteria o) c' -> rossby_not_negative (t_rossby o) ->
  alone o [level] t R -> alone (with_criteria c' o) [level] t R' ->
  exists E E', rows R = map (at_time t) (table E) /\ rows R' = map (at_time t) (table E') /\ some_of E' E.
Proof.
  intros o c' t level R R' H5 Ht Hs Hr A A'.
  assert (D : zero level \/ ~ zero level).
  { destruct level as [|q]; [right; intros (q & E & _); discriminate|]. destruct (Qeq_dec q 0) as [E|N]; [left; exists q; auto|right; intros (p & E & Z); apply N; congruence]. }
  destruct D as [Z|NZ].
  - exists [], []. assert (Nl : nonzero_levels [level] = []) by (destruct Z as (q & -> & E); unfold nonzero_levels; cbn [filter neqb]; rewrite (proj2 (Qeq_bool_iff q 0) E); reflexivity).
    destruct (alone_inv _ _ _ _ H5 Ht A) as (g & Hg & Er). destruct (alone_inv (with_criteria c' o) _ _ _ H5 Ht A') as (g' & Hg' & Er').
    unfold detect_of, snapshot, detect_snapshot in Hg, Hg'. rewrite Nl in Hg, Hg'. change (data2track (with_criteria c' o) t) with (data2track o t) in Hg'. destruct (data2track o t) as [d|]; [|discriminate]. cbn [snapshot_loop fst] in Hg, Hg'. assert (g = empty_frame) as -> by congruence. assert (g' = empty_frame) as -> by congruence.
    split; [exact Er|]. split; [exact Er'|constructor].
  - destruct (one_level_alone o t level R H5 Ht NZ A) as (f & cs & fs & Ed & Ec & _ & F & Er). destruct (one_level_alone (with_criteria c' o) t level R' H5 Ht NZ A') as (f' & cs' & fs' & Ed' & Ec' & _ & F' & Er').
    change (data2track (with_criteria c' o) t) with (data2track o t) in Ed'. assert (f' = f) as -> by congruence. change (contours_at (with_criteria c' o) (Some f) level) with (contours_at o (Some f) level) in Ec'. assert (cs' = cs) as -> by congruence.
    exists (kept fs), (kept fs'). split; [exact Er|]. split; [exact Er'|]. eapply kept_some; eassumption.
Qed.
Print Assumptions C143_stricter_criteria.

(** *** raising the agreement asked for with the fitted ellipse adds eddies *)
Definition asking (fit : Q) : criteria := mkCrit (Num fit) (Num (9 # 10)) (Num (1 # 10)) (Num 1).
Theorem C143_ellipse_fit_refuted : exists o level fit fit' R R', five_fitted o /\ (fit < fit')%Q /\ alone (with_criteria (asking fit) o) [level] 0 R /\ alone (with_criteria (asking fit') o) [level] 0 R' /\ rows R = [] /\ rows R' <> [].
Proof.
  set (o := ex_tracker [spots [(3, 3)]]). exists o, (Num (1 # 2)), (4 # 10)%Q, (85 # 100)%Q. eexists _, _. split; [apply ex_five|]. split; [reflexivity|].
  split; [apply returns_of; [eexists|]; vm_compute; reflexivity|]. split; [apply returns_of; [eexists|]; vm_compute; reflexivity|]. split; [vm_compute; reflexivity|intro H; vm_compute in H; discriminate H].
Qed.
Print Assumptions C143_ellipse_fit_refuted.

(** *** with two levels a stricter limit on the eccentricity brings up contours that were not reported before *)
Definition rounder_inside (d : list (grid num)) : tracker :=
  let o := ex_tracker d in
  mkTracker (t_data o) (t_X o) (t_Y o) (t_filter o) (t_flops o) (t_rossby o) (fun c => Ok (c, (Num 2, snd (hd (NaN, NaN) c), Num 0))) (fun a b => nsub (Num 1) (nmul (Num (1 # 2)) b)) (t_similarity o)
    (t_surface o) (t_tree o) (t_query o) (t_keep o) (t_garbage o) (t_criteria o) (t_skip_gaussian_fit o) (t_out_format o).
Definition limited (ecc : Q) : criteria := mkCrit (Num (85 # 100)) (Num ecc) (Num (1 # 10)) (Num 1).
Theorem C143_two_levels_refuted : exists o levels c c' R R', five_fitted o /\ rossby_not_negative (t_rossby o) /\ stricter c c' /\ alone (with_criteria c o) levels 0 R /\ alone (with_criteria c' o) levels 0 R' /\
  rows R' <> [] /\ forall r r', In r (rows R) -> In r' (rows R') -> r_cols r <> r_cols r'.
Proof.
  set (o := rounder_inside [spots [(3, 3)]]). exists o, [Num (1 # 4); Num (1 # 2)], (limited (9 # 10)), (limited (3 # 10)). eexists _, _.
  split; [exact (ex_five [spots [(3, 3)]])|]. split; [intros y q E; injection E as <-; discriminate|].
  split; [repeat split; eexists _, _; (split; [reflexivity|]); (split; [reflexivity|]); vm_compute; discriminate|].
  split; [apply returns_of; [eexists|]; vm_compute; reflexivity|]. split; [apply returns_of; [eexists|]; vm_compute; reflexivity|]. split; [intro H; vm_compute in H; discriminate H|].
  set (R := returned _). set (R' := returned _).
  assert (A : forallb (fun r => neqb (nth 2 (others (r_cols r)) NaN) (Num (1 # 4))) (rows R) = true) by (vm_compute; reflexivity).
  assert (B' : forallb (fun r => negb (neqb (nth 2 (others (r_cols r)) NaN) (Num (1 # 4)))) (rows R') = true) by (vm_compute; reflexivity).
  rewrite forallb_forall in A, B'. intros r r' Hr Hr' E. specialize (A r Hr). specialize (B' r' Hr'). cbv beta in A, B'. rewrite <- E, A in B'. discriminate B'.
Qed.
Print Assumptions C143_two_levels_refuted.

(** The hypotheses of the companion are met, with one of two eddies left *)
Definition rounder_east (d : list (grid num)) : tracker :=
  let o := ex_tracker d in
  mkTracker (t_data o) (t_X o) (t_Y o) (t_filter o) (t_flops o) (t_rossby o) (fun c => Ok (c, (Num 2, fst (hd (NaN, NaN) c), Num 0))) (fun a b => nsub (Num 1) (nmul (Num (1 # 10)) b)) (t_similarity o)
    (t_surface o) (t_tree o) (t_query o) (t_keep o) (t_garbage o) (t_criteria o) (t_skip_gaussian_fit o) (t_out_format o).
Example C143_case : let o := with_criteria (limited (9 # 10)) (rounder_east [spots [(3, 3); (8, 6)]]) in five_fitted o /\ rossby_not_negative (t_rossby o) /\ stricter (t_criteria o) (limited (5 # 10)) /\
  exists R R', alone o [Num (1 # 2)] 0 R /\ alone (with_criteria (limited (5 # 10)) o) [Num (1 # 2)] 0 R' /\ length (rows R) = 26%nat /\ length (rows R') = 13%nat.
Proof.
  cbv zeta. set (o := with_criteria _ (rounder_east _)). split; [exact (ex_five [])|]. split; [intros y q E; injection E as <-; discriminate|].
  split; [repeat split; eexists _, _; (split; [reflexivity|]); (split; [reflexivity|]); vm_compute; discriminate|].
  eexists _, _. split; [apply returns_of; [eexists|]; vm_compute; reflexivity|]. split; [apply returns_of; [eexists|]; vm_compute; reflexivity|]. split; vm_compute; reflexivity.
Qed.

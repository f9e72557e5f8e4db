(** C144: skipping the fit of a Gaussian *)
From Coq Require Import Lia Lqa Permutation.
From Verif Require Import M_Base M_Tables M_Area M_Eddy M_Detect M_Cntr M_Extract M_Window M_Pipeline S_Cntr S_Tracking S_Levels S_Detect S_Pipeline S_Process S_Strict S_Skip
  L_Base L_Levels L_Levels2 L_Levels3 L_Track L_Step L_Run L_Run2 L_TrackProps L_Detect3 L_Detect4 L_Pipeline L_Witness L_Window4 P_Cntr P_Detect P_Levels P_Tracking P_Pipeline P_Process P_Levels2 P_Strict.
Open Scope Z_scope.

Lemma accepted_skip o f x c : is_accepted (settings (with_skip false o) f x) c -> is_accepted (settings (with_skip true o) f x) c.
Proof.
  intros [Hd HC]. split; [exact Hd|]. intros nb Hin. apply HC. unfold checks in *. apply in_or_app. left. apply in_app_or in Hin. destruct Hin as [Hin|[]]. exact Hin.
Qed.
Lemma Forall2_map_same {A B} (P : B -> B -> Prop) (f g : A -> B) l : (forall a, P (f a) (g a)) -> Forall2 P (map f l) (map g l).
Proof. intro H. induction l as [|a l IH]; cbn; constructor; auto. Qed.
Definition skipped_pair (e e' : eddy) : Prop := Forall2 (fun c c' => same_but_gaussian c c' /\ gaussian_given c /\ no_gaussian c') e e'.
Lemma recorded_skip o f x c e v : five_fitted o -> is_judged (settings (with_skip false o) f x) x c (Kept e) -> is_judged (settings (with_skip true o) f x) x c v -> exists e', v = Kept e' /\ skipped_pair e e'.
Proof.
  intros H5 [A (el & a & b & th & err & sgn & m & y & z & g & gerr & E1 & E2 & E3 & (gc & E4 & E5) & E6)] J. unfold is_judged in *. cbn [settings s_fit_ellipse s_similarity s_data s_gauss_fit s_skip with_skip t_fit_ellipse t_similarity t_skip_gaussian_fit] in E1, E2, E3, E4, E5.
  eexists. split.
  - eapply judged_unique; [exact J|]. split; [apply accepted_skip, A|]. exists el, a, b, th, err, sgn, m, y, z, [NaN], (Num 0). split; [exact E1|]. split; [exact E2|]. split; [exact E3|]. split; [split; reflexivity|reflexivity].
  - rewrite E6. apply Forall2_map_same. intro p. split; [repeat split|]. split; [|split; reflexivity].
    pose proof (settings_five (with_skip false o) f x H5 c g gc E4) as L. unfold gaussian_given. cbn. exact L.
Qed.
Lemma kept_skip o f x cs fs fs' : five_fitted o -> Forall2 (is_judged (settings (with_skip false o) f x) x) cs fs -> Forall2 (is_judged (settings (with_skip true o) f x) x) cs fs' -> some_of_by skipped_pair (kept fs) (kept fs').
Proof.
  intros H5 F. revert fs'. induction F as [|c v cs fs J F IH]; intros fs' F'; inversion F' as [|? v' ? fs0 J' F0]; subst; [constructor|]. specialize (IH _ F0). unfold kept in *. cbn [flat_map].
  destruct v as [|e|r]; cbn [app].
  - destruct v'; [exact IH| |exact IH]. apply by_drop, IH.
  - destruct (recorded_skip _ _ _ _ _ _ H5 J J') as (e' & -> & P). apply by_keep; assumption.
  - destruct v'; [exact IH| |exact IH]. apply by_drop, IH.
Qed.
Lemma kept_gaussian o f x cs fs : Forall2 (is_judged (settings (with_skip true o) f x) x) cs fs -> Forall (Forall no_gaussian) (kept fs).
Proof.
  induction 1 as [|c v cs fs J F IH]; [constructor|]. unfold kept in *. cbn [flat_map]. destruct v as [|e|r]; cbn [app]; [exact IH| |exact IH]. constructor; [|exact IH].
  destruct J as [_ (el & a & b & th & err & sgn & m & y & z & g & gerr & _ & _ & _ & (-> & ->) & ->)]. apply Forall_forall. intros k Hk. apply in_map_iff in Hk. destruct Hk as (p & <- & _). split; reflexivity.
Qed.

(** C144, companion: at one level, the eddies found with the fit are some of those found without it, in the same order and with the same
    columns except those of the Gaussian; without the fit these hold no number and the error 0. *)
Theorem C144_skipping_the_gaussian : forall o t level R R', five_fitted o -> 0 <= t -> ~ zero level ->
  alone (with_skip false o) [level] t R -> alone (with_skip true o) [level] t R' ->
  exists E E', rows R = map (at_time t) (table E) /\ rows R' = map (at_time t) (table E') /\
    some_of_by (Forall2 (fun c c' => same_but_gaussian c c' /\ gaussian_given c /\ no_gaussian c')) E E' /\ Forall (Forall no_gaussian) E'.
Proof.
  intros o t level R R' H5 Ht NZ A A'.
  destruct (one_level_alone (with_skip false o) t level R H5 Ht NZ A) as (f & cs & fs & Ed & Ec & _ & F & Er). destruct (one_level_alone (with_skip true o) t level R' H5 Ht NZ A') as (f' & cs' & fs' & Ed' & Ec' & _ & F' & Er').
  change (data2track (with_skip false o) t) with (data2track o t) in Ed. change (data2track (with_skip true o) t) with (data2track o t) in Ed'. assert (f' = f) as -> by congruence.
  change (contours_at (with_skip false o) (Some f) level) with (contours_at o (Some f) level) in Ec. change (contours_at (with_skip true o) (Some f) level) with (contours_at o (Some f) level) in Ec'. assert (cs' = cs) as -> by congruence.
  exists (kept fs), (kept fs'). split; [exact Er|]. split; [exact Er'|]. split; [eapply kept_skip; eassumption|eapply kept_gaussian; eassumption].
Qed.
Print Assumptions C144_skipping_the_gaussian.

(** *** with two levels a contour that is only found without the fit hides the one inside it *)
Definition flat_below (f : grid num) (level : num) (c : contour) : res (list num * (mat num * mat num * mat num)) :=
  let s := if ngt level (Num (1 # 3)) then f else tabulate 12 12 (fun _ _ => Num 0) in
  Ok ([Num 1; Num 2; Num 3; Num 4; Num 5], (array_of s, array_of s, array_of s)).
Definition fit_fails_below (d : list (grid num)) : tracker :=
  let o := ex_tracker d in
  mkTracker (t_data o) (t_X o) (t_Y o) (t_filter o) (t_flops o) (t_rossby o) (t_fit_ellipse o) (t_eccentricity o) (t_similarity o)
    flat_below (t_tree o) (t_query o) (t_keep o) (t_garbage o) (t_criteria o) (t_skip_gaussian_fit o) (t_out_format o).
Lemma flat_five d : five_fitted (fit_fails_below d).
Proof. intros f level c g s H. cbn [fit_fails_below t_surface] in H. unfold flat_below in H. assert (E := f_equal (fun r => match r with Ok (g, _) => g | Err _ => [] end) H). cbn in E. rewrite <- E. reflexivity. Qed.
Theorem C144_two_levels_refuted : exists o levels R R', five_fitted o /\ alone (with_skip false o) levels 0 R /\ alone (with_skip true o) levels 0 R' /\
  rows R <> [] /\ forall r r', In r (rows R) -> In r' (rows R') -> ~ same_but_gaussian (r_cols r) (r_cols r').
Proof.
  set (o := fit_fails_below [spots [(3, 3)]]). exists o, [Num (1 # 4); Num (1 # 2)]. eexists _, _.
  split; [apply flat_five|].
  split; [apply returns_of; [eexists|]; vm_compute; reflexivity|]. split; [apply returns_of; [eexists|]; vm_compute; reflexivity|]. split; [intro H; vm_compute in H; discriminate H|].
  set (R := returned _). set (R' := returned _).
  assert (A : forallb (fun r => neqb (nth 2 (firstn 12 (others (r_cols r))) NaN) (Num (1 # 2))) (rows R) = true) by (vm_compute; reflexivity).
  assert (B' : forallb (fun r => negb (neqb (nth 2 (firstn 12 (others (r_cols r))) NaN) (Num (1 # 2)))) (rows R') = true) by (vm_compute; reflexivity).
  rewrite forallb_forall in A, B'. intros r r' Hr Hr' (_ & _ & _ & _ & E). specialize (A r Hr). specialize (B' r' Hr'). cbv beta in A, B'. rewrite <- E, A in B'. discriminate B'.
Qed.
Print Assumptions C144_two_levels_refuted.

(** The hypotheses of the companion are met: two eddies without the fit, one with it *)
Definition flat_east (f : grid num) (level : num) (c : contour) : res (list num * (mat num * mat num * mat num)) :=
  let s := match c with (x, _) :: _ => if ngt x (Num 5) then tabulate 12 12 (fun _ _ => Num 0) else f | [] => f end in
  Ok ([Num 1; Num 2; Num 3; Num 4; Num 5], (array_of s, array_of s, array_of s)).
Definition fit_fails_east (d : list (grid num)) : tracker :=
  let o := ex_tracker d in
  mkTracker (t_data o) (t_X o) (t_Y o) (t_filter o) (t_flops o) (t_rossby o) (t_fit_ellipse o) (t_eccentricity o) (t_similarity o)
    flat_east (t_tree o) (t_query o) (t_keep o) (t_garbage o) (t_criteria o) (t_skip_gaussian_fit o) (t_out_format o).
Example C144_case : let o := fit_fails_east [spots [(3, 3); (8, 6)]] in five_fitted o /\
  exists R R', alone (with_skip false o) [Num (1 # 2)] 0 R /\ alone (with_skip true o) [Num (1 # 2)] 0 R' /\ length (rows R) = 13%nat /\ length (rows R') = 26%nat.
Proof.
  cbv zeta. set (o := fit_fails_east _). split.
  { intros f level c g s H. cbn [o fit_fails_east t_surface] in H. unfold flat_east in H. assert (E := f_equal (fun r => match r with Ok (g, _) => g | Err _ => [] end) H). cbn in E. rewrite <- E. reflexivity. }
  eexists _, _. split; [apply returns_of; [eexists|]; vm_compute; reflexivity|]. split; [apply returns_of; [eexists|]; vm_compute; reflexivity|]. split; vm_compute; reflexivity.
Qed.

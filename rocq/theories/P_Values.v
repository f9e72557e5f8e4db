(** Small parts of C05, C50 and C53 that seeded bugs showed to be missing *)
From Coq Require Import Lia String.
From Verif Require Import M_Base M_Tables M_Area M_Eddy M_Detect M_Filter S_Tracking S_Levels S_Detect L_Detect L_Detect2 P_Detect P_Filter.
Open Scope Z_scope.

(** *** C53: the columns of a discarded contour, with the values found before it was discarded *)
Theorem C53_discarded_columns : forall s level c r e id, c <> [] ->
  examine (s_flops s) (s_rossby s) (s_fit_ellipse s) (s_eccentricity s) (s_similarity s) (s_data s) (s_gauss_fit s) level (s_crit s) (s_skip s) c = Ok (Discard r e) ->
  exists d l a rd err cx cy ecc sgn gerr, discard_row e r id = Ok [(id, d)] /\
    dget "reason" d = Some (CScalar (VStr r)) /\ dget "level" d = Some (CScalar (VNum l)) /\ dget "area_eddy" d = Some (CScalar (VNum a)) /\ dget "radius_eddy" d = Some (CScalar (VNum rd)) /\
    dget "contour_ellipse_error" d = Some (CScalar (VNum err)) /\ dget "contour_x" d = Some (CScalar (VNum cx)) /\ dget "contour_y" d = Some (CScalar (VNum cy)) /\
    dget "ellipse_eccen" d = Some (CScalar (VNum ecc)) /\ dget "eddy_sign" d = Some (CScalar (VNum sgn)) /\ dget "contour_gaussian_error" d = Some (CScalar (VNum gerr)) /\
    a_level e = scalar (VNum l) /\ a_area e = scalar (VNum a) /\ a_radius e = scalar (VNum rd) /\ a_ellipse_error e = scalar (VNum err) /\ a_center e = vector [cx; cy] /\ a_eccen e = scalar (VNum ecc) /\
    a_sign e = scalar (VNum sgn) /\ a_gauss_error e = scalar (VNum gerr) /\
    (map fst d = ["reason"; "level"; "area_eddy"; "radius_eddy"; "contour_ellipse_error"; "contour_x"; "contour_y"; "ellipse_eccen"; "eddy_sign"; "eddy_maxima"; "contour_gaussian_error"]%string \/
     map fst d = ["reason"; "level"; "area_eddy"; "radius_eddy"; "contour_ellipse_error"; "contour_x"; "contour_y"; "ellipse_eccen"; "eddy_sign"; "maxima"; "maxima_y"; "maxima_x"; "contour_gaussian_error"]%string).
Proof.
  intros s level c r e id Hc H. pose proof (examine_spec (s_flops s) (s_rossby s) (s_fit_ellipse s) (s_eccentricity s) (s_similarity s) (s_data s) (s_gauss_fit s) level (s_crit s) (s_skip s) c Hc) as S.
  rewrite H in S. destruct S as [_ (l & a & rd & err & cx & cy & ecc & sg & gerr & m & H1 & H2 & H3 & H4 & H5 & H6 & H7 & H8 & H9)]. clear H.
  unfold discard_row, to_dict, discarded_properties. cbn [fold_left bind attrs String.eqb Ascii.eqb Bool.eqb].
  destruct e; cbn in *. subst. destruct H9 as [->|(v & y & x & ->)]; do 10 eexists; (split; [reflexivity|]); repeat (split; [reflexivity|]); [left|right]; reflexivity.
Qed.
Print Assumptions C53_discarded_columns.
(** The contour of C18_case that is discarded because of its area *)
Example C53_discarded_case : south <> [] /\ exists e, examine (s_flops (demo false)) (s_rossby (demo false)) (s_fit_ellipse (demo false)) (s_eccentricity (demo false)) (s_similarity (demo false)) (s_data (demo false)) (s_gauss_fit (demo false)) (Num 1)
  (s_crit (demo false)) (s_skip (demo false)) south = Ok (Discard "area" e).
Proof. split; [discriminate|]. eexists. vm_compute. reflexivity. Qed.

(** *** C50: the filter of a new object subtracts the mean of the 11 x 11 points around each point *)
Theorem C50_default_filter : half_side 10 5 /\ forall b d, filter_data b "space" default_setup d = filter_data b "space" (uniform_setup 10) d.
Proof. split; [unfold half_side; lia|reflexivity]. Qed.
Print Assumptions C50_default_filter.

(** *** C05: the last known value of a column: the last one that is not missing *)
Theorem C05_last_known_value : forall l v, last_num l = Num v <-> exists before after, l = (before ++ Num v :: after)%list /\ forall x, In x after -> x = NaN.
Proof.
  intros l v. induction l as [|a l IH] using rev_ind.
  - split; [discriminate|]. intros ([|? ?] & after & E & _); discriminate E.
  - unfold last_num. rewrite fold_left_app. fold (last_num l). cbn [fold_left]. destruct a as [|q]; cbn [is_nan].
    + rewrite IH. split; intros (b & t & E & H).
      * exists b, (t ++ [NaN])%list. split; [rewrite E, <- app_assoc; reflexivity|]. intros x Hx. apply in_app_or in Hx as [Hx|[<-|[]]]; [apply H, Hx|reflexivity].
      * destruct t as [|z t] using rev_ind; [apply app_inj_tail in E as [_ E]; discriminate E|]. exists b, t. rewrite app_comm_cons, app_assoc in E. apply app_inj_tail in E as [E _]. split; [exact E|]. intros x Hx. apply H, in_or_app. left. exact Hx.
    + split.
      * intro E. exists l, []. split; [rewrite E; reflexivity|intros x []].
      * intros (b & t & E & H). destruct t as [|z t] using rev_ind; [apply app_inj_tail in E as [_ E]; exact E|]. rewrite app_comm_cons, app_assoc in E. apply app_inj_tail in E as [_ E]. specialize (H z ltac:(apply in_or_app; right; left; reflexivity)). congruence.
Qed.
Print Assumptions C05_last_known_value.
Example C05_last_case : last_num [Num 1; Num 2; NaN] = Num 2.
Proof. reflexivity. Qed.

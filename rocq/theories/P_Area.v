(** Properties C39 and C71: area of a contour. *)
From Coq Require Import Reals Lra Lia.
From Verif Require Import M_Base M_Area M_AreaR S_Area L_Area L_Area2.
Open Scope R_scope.

(** C39: no square root of a negative number, for any longitude and latitude. *)
Theorem C39_defined p : 0 <= haversine p /\ 0 <= 1 - haversine p /\ angular_distance p = 2 * atan2 (sqrt (haversine p)) (sqrt (1 - haversine p)).
Proof. pose proof (haversine_bound p). split; [lra|]. split; [lra|]. rewrite colat_def, haversine_def. reflexivity. Qed.
Print Assumptions C39_defined.
Theorem C39_nonnegative contour : 0 <= area contour.
Proof. rewrite area_def. apply Rmult_le_pos; [|lra]. apply Rmult_le_pos; [apply Rabs_pos|]. unfold earth_radius. apply pow_le. lra. Qed.
Print Assumptions C39_nonnegative.
Theorem C39_single_place contour p : (forall q, In q contour -> q = p) -> area contour = 0.
Proof. intro H. rewrite area_def, (segs_const p contour H), Rabs_R0. unfold Rdiv. ring. Qed.
Print Assumptions C39_single_place.
Theorem C39_there_and_back p l : no_half_turn (p :: l) -> area (app (rev l) (p :: l)) = 0.
Proof. intro H. rewrite area_def, (segs_palindrome p l H), Rabs_R0. unfold Rdiv. ring. Qed.
Print Assumptions C39_there_and_back.
Theorem C39_whole_turns contour contour' : Forall2 same_place contour contour' -> area contour' = area contour.
Proof. intro H. rewrite !area_def, (segs_same _ _ H). reflexivity. Qed.
Print Assumptions C39_whole_turns.
Theorem C39_mirror_east_west contour : no_half_turn contour -> area (map mirror_ew contour) = area contour.
Proof. intro H. rewrite !area_def, (segs_mirror_ew _ H), Rabs_Ropp. reflexivity. Qed.
Print Assumptions C39_mirror_east_west.
Theorem C39_mirror_north_south contour : no_half_turn contour -> (forall p, In p contour -> ~ at_origin p) -> area (map mirror_ns contour) = area contour.
Proof. intros H O. rewrite !area_def, (segs_mirror_ns _ H O), Rabs_Ropp. reflexivity. Qed.
Print Assumptions C39_mirror_north_south.
Theorem C39_reversed contour : no_half_turn contour -> area (rev contour) = area contour.
Proof. intro H. rewrite !area_def, (segs_rev _ H), Rabs_Ropp. reflexivity. Qed.
Print Assumptions C39_reversed.
(** A closed contour may start at any of its vertices. *)
Theorem C39_restart x y l : area (app (y :: l) [x; y]) = area (x :: app (y :: l) [x]).
Proof. rewrite !area_def, segs_restart. reflexivity. Qed.
Print Assumptions C39_restart.
(** A vertex at longitude 0, latitude 0 breaks the mirror symmetry. *)
Theorem C39_mirror_north_south_refuted : exists contour, hd_error contour = Some (0, 0) /\ last contour (1, 1) = (0, 0) /\ area (map mirror_ns contour) <> area contour.
Proof. exists [origin_pt; p_pt; q_pt; origin_pt]. split; [reflexivity|]. split; [reflexivity|exact mirror_through_origin]. Qed.
Print Assumptions C39_mirror_north_south_refuted.
(** A segment of half a turn: the area of a triangle of one degree depends on the direction and is 0 in one of them. *)
Theorem C39_half_turn_refuted : let contour := [(-1, 0); (1, 0); (0, 1); (-1, 0)] in 0 < area contour /\ area (rev contour) = 0.
Proof. exact triangle_areas. Qed.
Print Assumptions C39_half_turn_refuted.
(** The two coordinates the integral uses: great-circle distance from (0, 0) and azimuth there. *)
Theorem C71_polar_coordinates lon lat : let p := (lon, lat) in let lo := lon * (PI / 180) in let la := lat * (PI / 180) in let r := sqrt (sin la ^ 2 + (cos la * sin lo) ^ 2) in
  cos (angular_distance p) = cos la * cos lo /\ 0 <= angular_distance p <= PI /\
  sin la = r * cos (az p) /\ cos la * sin lo = r * sin (az p) /\ 0 <= az p < 2 * PI.
Proof.
  intros p lo la r. destruct (angular_distance_cos p) as [A B]. destruct (az_polar p) as [C [D E]]. unfold level, north, east, p in *. cbn [fst snd] in *. rewrite !radians_def in *. fold lo la in A, C, D. fold r in C, D.
  split; [exact A|]. split; [exact B|]. split; [exact C|]. split; [exact D|exact E].
Qed.
Print Assumptions C71_polar_coordinates.
(** C71: a closed contour on a circle about (0, 0) has a whole multiple of the area of the spherical cap, in square kilometres. *)
Theorem C71_cap c p l : last (p :: l) p = p -> (forall q, In q (p :: l) -> angular_distance q = c) ->
  exists k : Z, area (p :: l) = Rabs (IZR k) * (2 * PI * (earth_radius / 1000) ^ 2 * (1 - cos c)).
Proof.
  intros Cl D. destruct (turns_eqm l p) as [k E]. rewrite Cl in E. exists k. rewrite area_def, (segs_circle c _ D), E. pose proof PI_RGT_0. pose proof (COS_bound c).
  replace (az p - az p + TP * IZR k) with (2 * PI * IZR k) by (unfold TP; ring). rewrite !Rabs_mult, (Rabs_right (1 - cos c)), (Rabs_right PI), (Rabs_right 2) by lra. field.
Qed.
Print Assumptions C71_cap.

(** A diamond of one degree around (0, 0) meets the hypotheses and has the area of the cap once. *)
Example C39_example : no_half_turn diamond /\ (forall p, In p diamond -> ~ at_origin p) /\ area diamond = 2 * PI * (earth_radius / 1000) ^ 2 * (1 - cos (PI / 180)).
Proof.
  destruct diamond_turns as [T N]. split; [exact N|]. split; [exact diamond_off_origin|]. pose proof cos_small as C. rewrite radians_def, Rmult_1_l in C. pose proof PI_RGT_0.
  rewrite area_def, (segs_circle (dist_of (cos (radians 1))) _ diamond_distance), T. rewrite (proj1 (dist_cos (cos (radians 1)) (COS_bound _))), radians_def, Rmult_1_l.
  rewrite Rabs_left by nra. field.
Qed.
Example C39_turns_example : Forall2 same_place [(10, 20); (11, 20)] [(370, 20); (-349, 20)].
Proof. constructor; [split; [reflexivity|exists 1%Z; cbn [fst snd]; lra]|]. constructor; [split; [reflexivity|exists (-1)%Z; cbn [fst snd]; lra]|]. constructor. Qed.
Example C71_example : last diamond (1, 0) = (1, 0) /\ forall p, In p diamond -> angular_distance p = dist_of (cos (radians 1)).
Proof. split; [reflexivity|exact diamond_distance]. Qed.

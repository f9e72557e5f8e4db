(** Properties C51, C52 and C72: coordinates of the data. *)
From Coq Require Import Lia.
From Verif Require Import M_Base M_Coords S_Coords L_Coords.
Open Scope string_scope.

(** C51: dimensions with usual names are found in whatever order they come. *)
Theorem C51_dimensions dims vars t x y : the_only time_dim dims t -> the_only lon_dim dims x -> the_only lat_dim dims y ->
  let c := identify_coords dims vars in c_time c = t /\ c_x c = x /\ c_y c = y.
Proof.
  intros T X Y c. destruct (identify_dims dims vars) as [Et [Ex Ey]]. unfold c. rewrite Et, Ex, Ey.
  split; [exact (the_only_fold time_dim c_time dims t time_step T)|]. split; [exact (the_only_fold lon_dim c_x dims x lon_step X)|exact (the_only_fold lat_dim c_y dims y lat_step Y)].
Qed.
Print Assumptions C51_dimensions.
Theorem C51_no_time dims vars : (forall n, In n dims -> ~ time_dim n) -> c_time (identify_coords dims vars) = "".
Proof. intro H. destruct (identify_dims dims vars) as [-> _]. exact (none_fold time_dim c_time dims time_step H). Qed.
Print Assumptions C51_no_time.
Theorem C51_grid {A} dims vars (get : string -> option (array A)) x y xs ys : ~ coordinate_variables vars -> the_only lon_dim dims x -> the_only lat_dim dims y ->
  get x = Some (OneD xs) -> get y = Some (OneD ys) -> exists c G, init_coords dims vars get = Ok (c, G) /\ c_x c = x /\ c_y c = y /\ grid_of xs ys G.
Proof.
  intros V X Y Ex Ey. exists (identify_coords dims vars), (meshgrid xs ys). rewrite (check_names get dims vars x y V X Y), Ex, Ey. split; [reflexivity|]. destruct (identify_dims dims vars) as [_ [-> ->]].
  split; [exact (the_only_fold lon_dim c_x dims x lon_step X)|]. split; [exact (the_only_fold lat_dim c_y dims y lat_step Y)|apply meshgrid_ok].
Qed.
Print Assumptions C51_grid.
(** Coordinates that are neither both 1-D nor both 2-D are rejected, and so is a missing dimension. *)
Theorem C51_shape_rejected {A} dims vars (get : string -> option (array A)) x y a b : ~ coordinate_variables vars -> the_only lon_dim dims x -> the_only lat_dim dims y ->
  get x = Some a -> get y = Some b -> ~ (exists u v, a = OneD u /\ b = OneD v) -> ~ (exists u v, a = TwoD u /\ b = TwoD v) -> init_coords dims vars get = Err ValueError.
Proof.
  intros V X Y Ex Ey N1 N2. rewrite (check_names get dims vars x y V X Y), Ex, Ey. destruct a as [u|u|u], b as [v|v|v]; try reflexivity; exfalso; [apply N1|apply N2]; exists u, v; auto.
Qed.
Print Assumptions C51_shape_rejected.
Theorem C51_missing {A} dims vars (get : string -> option (array A)) : ~ coordinate_variables vars -> (forall n, In n dims -> ~ lon_dim n) \/ (forall n, In n dims -> ~ lat_dim n) ->
  init_coords dims vars get = Err ValueError.
Proof.
  intros V H. unfold init_coords, check_coords. destruct (identify_vars dims vars) as [C|[_ N]]; [contradiction|]. destruct (identify_dims dims vars) as [_ [Ex Ey]]. rewrite Ex, Ey.
  assert (E : (negb (String.eqb (c_x (fold_left get_dims dims no_coords)) "") && negb (String.eqb (c_y (fold_left get_dims dims no_coords)) ""))%bool = false).
  { destruct H as [H|H]; [rewrite (none_fold lon_dim c_x dims lon_step H)|rewrite (none_fold lat_dim c_y dims lat_step H)]; cbn [no_coords c_x c_y]; [reflexivity|apply andb_false_r]. }
  rewrite E. destruct (c_xvar (identify_coords dims vars)), (c_yvar (identify_coords dims vars)); try reflexivity. destruct N; discriminate.
Qed.
Print Assumptions C51_missing.

(** With data variables for longitude and latitude the grid is theirs, whatever the dimensions are called. *)
Theorem C51_variables {A} dims vars (get : string -> option (array A)) v w X Y : the_only lon_name vars v -> the_only lat_name vars w ->
  get v = Some (TwoD X) -> get w = Some (TwoD Y) -> exists c, init_coords dims vars get = Ok (c, (X, Y)).
Proof.
  intros [V1 [V2 V3]] [W1 [W2 W3]] Ev Ew. exists (identify_coords dims vars). unfold init_coords, check_coords.
  assert (Hx : c_xvar (identify_coords dims vars) = Some v).
  { unfold identify_coords. destruct (xvar_fold vars (fold_left get_dims dims no_coords)) as [[u [Hu [Pu E]]]|[N _]]; [rewrite E, (V3 u Hu Pu); reflexivity|exfalso; exact (N v V1 V2)]. }
  assert (Hy : c_yvar (identify_coords dims vars) = Some w).
  { unfold identify_coords. destruct (yvar_fold vars (fold_left get_dims dims no_coords)) as [[u [Hu [Pu E]]]|[N _]]; [rewrite E, (W3 u Hu Pu); reflexivity|exfalso; exact (N w W1 W2)]. }
  rewrite Hx, Hy. cbn [bind fst snd]. rewrite Ev, Ew. reflexivity.
Qed.
Print Assumptions C51_variables.

(** C52 fails: two variables that merely contain "lon" and "lat" in their names replace the coordinates. *)
Definition radiation : string -> option (array Z) := fun n =>
  if String.eqb n "lon" then Some (OneD [10; 11]%Z) else if String.eqb n "lat" then Some (OneD [-30; -29]%Z)
  else if String.eqb n "longwave" then Some (TwoD [[300; 310]; [320; 330]]%Z) else if String.eqb n "latent_heat" then Some (TwoD [[80; 81]; [82; 83]]%Z) else None.
Theorem C52_refuted : exists dims (get : string -> option (array Z)) G G',
  option_map snd (match init_coords dims ["ssh"] get with Ok r => Some r | Err _ => None end) = Some G /\
  option_map snd (match init_coords dims ["ssh"; "longwave"; "latent_heat"] get with Ok r => Some r | Err _ => None end) = Some G' /\
  at2 (fst G) 0 0 = Some 10%Z /\ at2 (snd G) 0 0 = Some (-30)%Z /\ at2 (fst G') 0 0 = Some 300%Z /\ at2 (snd G') 0 0 = Some 80%Z.
Proof. exists ["lat"; "lon"], radiation. eexists. eexists. split; [reflexivity|]. split; [reflexivity|]. repeat split. Qed.
Print Assumptions C52_refuted.
(** Without such a pair of names nothing changes; a variable with neither name never matters. *)
Theorem C52_no_pair_partial {A} dims vars (get : string -> option (array A)) : ~ coordinate_variables vars ->
  match init_coords dims [] get with Ok (c, G) => exists c', init_coords dims vars get = Ok (c', G) /\ c_time c' = c_time c /\ c_x c' = c_x c /\ c_y c' = c_y c | Err e => init_coords dims vars get = Err e end.
Proof.
  intro V. unfold init_coords, check_coords. destruct (identify_vars dims vars) as [C|[_ N]]; [contradiction|]. destruct (identify_dims dims vars) as [Et [Ex Ey]].
  destruct (dims_keep dims no_coords) as [Kx Ky]. cbn [identify_coords fold_left]. rewrite Kx, Ky. cbn [no_coords c_xvar c_yvar]. fold no_coords. rewrite Ex, Ey.
  destruct (c_xvar (identify_coords dims vars)), (c_yvar (identify_coords dims vars)); try (exfalso; destruct N; discriminate).
  all: destruct (negb _ && negb _)%bool; cbn [bind fst snd]; [|reflexivity].
  all: destruct (get (c_x (fold_left get_dims dims no_coords))) as [[u|u|u]|], (get (c_y (fold_left get_dims dims no_coords))) as [[v|v|v]|]; cbn [bind]; try reflexivity; eexists; (split; [reflexivity|auto]).
Qed.
Print Assumptions C52_no_pair_partial.
Theorem C52_other_names_partial dims a v b : ~ lon_name v -> ~ lat_name v -> identify_coords dims (app a (v :: b)) = identify_coords dims (app a b).
Proof. intros L T. unfold identify_coords. rewrite !fold_left_app. cbn [fold_left]. destruct (vars_step (fold_left get_vars a (fold_left get_dims dims no_coords)) v) as [[K _]|[[K _]|[_ [_ E]]]]; [contradiction..|]. rewrite E. reflexivity. Qed.
Print Assumptions C52_other_names_partial.

(** C72: the grid gives every cell of the data its longitude and latitude, provided latitude comes first among the dimensions. *)
Theorem C72_latitude_first_partial {A} vars (get : string -> option (array A)) x y xs ys i j : ~ coordinate_variables vars -> lon_dim x -> lat_dim y ->
  get x = Some (OneD xs) -> get y = Some (OneD ys) -> (i < length ys)%nat -> (j < length xs)%nat ->
  exists c G, init_coords [y; x] vars get = Ok (c, G) /\ at2 (fst G) i j = nth_error xs (index_along [y; x] x i j) /\ at2 (snd G) i j = nth_error ys (index_along [y; x] y i j).
Proof.
  intros V Lx Ly Ex Ey Hi Hj. pose proof (kinds_apart x) as Kx. pose proof (kinds_apart y) as Ky.
  assert (X : the_only lon_dim [y; x] x) by (split; [right; left; reflexivity|]; split; [exact Lx|]; intros m [<-|[<-|[]]] P; [exfalso; tauto|reflexivity]).
  assert (Y : the_only lat_dim [y; x] y) by (split; [left; reflexivity|]; split; [exact Ly|]; intros m [<-|[<-|[]]] P; [reflexivity|exfalso; tauto]).
  destruct (C51_grid [y; x] vars get x y xs ys V X Y Ex Ey) as [c [G [E [_ [_ [_ [_ [_ H]]]]]]]]. exists c, G. split; [exact E|]. destruct (H i j Hi Hj) as [H1 H2]. unfold index_along. cbn [hd].
  rewrite String.eqb_refl. assert (N : y <> x) by (intros ->; tauto). rewrite (proj2 (String.eqb_neq y x) N). auto.
Qed.
Print Assumptions C72_latitude_first_partial.
(** With longitude first the two are exchanged, for every dataset. *)
Theorem C72_longitude_first_refuted {A} vars (get : string -> option (array A)) x y xs ys i j : ~ coordinate_variables vars -> lon_dim x -> lat_dim y ->
  get x = Some (OneD xs) -> get y = Some (OneD ys) -> (i < length ys)%nat -> (j < length xs)%nat ->
  exists c G, init_coords [x; y] vars get = Ok (c, G) /\ at2 (fst G) i j = nth_error xs (index_along [x; y] y i j) /\ at2 (snd G) i j = nth_error ys (index_along [x; y] x i j).
Proof.
  intros V Lx Ly Ex Ey Hi Hj. pose proof (kinds_apart x) as Kx. pose proof (kinds_apart y) as Ky.
  assert (X : the_only lon_dim [x; y] x) by (split; [left; reflexivity|]; split; [exact Lx|]; intros m [<-|[<-|[]]] P; [reflexivity|exfalso; tauto]).
  assert (Y : the_only lat_dim [x; y] y) by (split; [right; left; reflexivity|]; split; [exact Ly|]; intros m [<-|[<-|[]]] P; [exfalso; tauto|reflexivity]).
  destruct (C51_grid [x; y] vars get x y xs ys V X Y Ex Ey) as [c [G [E [_ [_ [_ [_ [_ H]]]]]]]]. exists c, G. split; [exact E|]. destruct (H i j Hi Hj) as [H1 H2]. unfold index_along. cbn [hd].
  rewrite String.eqb_refl. assert (N : x <> y) by (intros ->; tauto). rewrite (proj2 (String.eqb_neq x y) N). auto.
Qed.
Print Assumptions C72_longitude_first_refuted.

Lemma not_like p q s : (contains p s || String.eqb s q)%bool = false -> ~ (occurs p s \/ s = q).
Proof. intros H P. apply like_spec in P. congruence. Qed.
(** A field of two by two cells: cell (0, 1) of the data lies at 10E 40N and is placed at 20E 30N. *)
Example C72_example : let get := fun n => if String.eqb n "lon" then Some (OneD [10; 20]%Z) else if String.eqb n "lat" then Some (OneD [30; 40]%Z) else None in
  exists c G, init_coords ["lon"; "lat"] ["ssh"] get = Ok (c, G) /\
  at2 (fst G) 0 1 = Some 20%Z /\ at2 (snd G) 0 1 = Some 30%Z /\ nth_error [10; 20]%Z (index_along ["lon"; "lat"] "lon" 0 1) = Some 10%Z /\ nth_error [30; 40]%Z (index_along ["lon"; "lat"] "lat" 0 1) = Some 40%Z.
Proof. eexists. eexists. split; [reflexivity|]. repeat split. Qed.
Example C51_example : let dims := ["latitude"; "time_counter"; "x"] in the_only time_dim dims "time_counter" /\ the_only lon_dim dims "x" /\ the_only lat_dim dims "latitude" /\ ~ coordinate_variables ["ssh"; "elongation"].
Proof.
  intro dims.
  assert (T1 : time_dim "time_counter") by (apply like_spec; reflexivity). assert (L1 : ~ time_dim "latitude") by (apply not_like; reflexivity). assert (X1 : ~ time_dim "x") by (apply not_like; reflexivity).
  assert (L2 : lon_name "x") by (apply like_spec; reflexivity). assert (L3 : ~ lon_name "latitude") by (apply not_like; reflexivity). assert (L4 : lat_name "latitude") by (split; [apply like_spec; reflexivity|exact L3]).
  unfold the_only, lon_dim, lat_dim, dims. split; [|split; [|split]].
  - split; [cbn; auto|]. split; [exact T1|]. intros m [<-|[<-|[<-|[]]]] P; tauto || reflexivity.
  - split; [cbn; auto|]. split; [tauto|]. intros m [<-|[<-|[<-|[]]]] P; tauto || reflexivity.
  - split; [cbn; auto|]. split; [tauto|]. intros m [<-|[<-|[<-|[]]]] P; try tauto. exfalso. destruct P as [[_ P] _]. tauto.
  - intros [_ [v [[<-|[<-|[]]] [P _]]]]; revert P; apply not_like; reflexivity.
Qed.

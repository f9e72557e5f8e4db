(** Properties C26-C31, C68, C69: the data around a contour. *)
From Coq Require Import Lia Lqa.
From Verif Require Import M_Base M_Detect S_Detect M_Window S_Window L_Base L_Detect L_Window L_Window2 L_Window3 L_Window4 L_Window5.
Open Scope Z_scope.

(** A 5 x 5 window, a ring of eight contour cells around the centre, and a field with one missing value. *)
Definition ring : list (Z * Z) := [(1, 1); (1, 2); (1, 3); (2, 3); (3, 3); (3, 2); (3, 1); (2, 1)].
Definition demo_field (sign : Z) : grid num :=
  tabulate 5 5 (fun i j => if (Nat.eqb i 3 && Nat.eqb j 3)%bool then NaN
                           else Num (inject_Z (sign * (if (Nat.eqb i 2 && Nat.eqb j 2)%bool then 9 else Z.of_nat i + 1)))).
Lemma demo_field_rect sign : rectangular 5 5 (demo_field sign).
Proof. apply tabulate_rect. Qed.
Lemma ring_within : cells_within 5 5 ring.
Proof. repeat constructor; cbn; lia. Qed.

(** C26.  The extremum reported is 0 exactly when the mean of the field inside the contour is 0. *)
Theorem C26_extremum_zero_iff_mean_zero : forall ny nx cells data mask s v i j,
  rectangular ny nx data -> (0 < ny)%nat -> (0 < nx)%nat -> cells_within ny nx cells ->
  mask_data cells data = Ok (mask, s, (v, i, j)) ->
  exists m q, Qmean (values_inside ny nx data mask) = Num m /\ v = Num q /\ ((q == 0)%Q <-> (m == 0)%Q).
Proof.
  intros ny nx cells data mask s v i j R Hy Hx Hc E. destruct (mask_data_spec ny nx cells data R Hy Hx Hc) as [mask' [HM HE]].
  destruct (Qmean (values_inside ny nx data mask')) as [|m] eqn:EM; [congruence|]. destruct HE as [s' [v' [i' [j' [HE1 HE2]]]]].
  rewrite E in HE1. injection HE1 as -> -> -> -> ->. exists m, v'. split; [exact EM|]. split; [reflexivity|].
  apply (extremum_cases ny nx data mask' m s' v' i' j' R EM HE2).
Qed.
Print Assumptions C26_extremum_zero_iff_mean_zero.
Example C26_example : exists mask, mask_data ring (demo_field 0) = Ok (mask, Num 0, (Num 0, 1%nat, 1%nat)).
Proof. eexists. vm_compute. reflexivity. Qed.

(** C27.  The extremum is the maximum of the field inside when the mean there is positive, the minimum when it is negative (the
    first in row-major order), it is the value at the reported cell, which lies inside, and it is at least as large as the mean. *)
Theorem C27_extremum_of_the_eddy : forall ny nx cells data mask s v i j,
  rectangular ny nx data -> (0 < ny)%nat -> (0 < nx)%nat -> cells_within ny nx cells ->
  mask_data cells data = Ok (mask, s, (v, i, j)) ->
  exists m q, Qmean (values_inside ny nx data mask) = Num m /\ v = Num q /\ (Qabs m <= Qabs q)%Q /\
    (exists d, value_at data mask i j d /\ (~ (m == 0)%Q -> (q == d)%Q)) /\
    ((0 < m)%Q -> s = Num 1 /\ forall i' j' d, value_at data mask i' j' d -> (d <= q)%Q /\ (before (i', j') (i, j) -> (d < q)%Q)) /\
    ((m < 0)%Q -> s = Num (-1) /\ forall i' j' d, value_at data mask i' j' d -> (q <= d)%Q /\ (before (i', j') (i, j) -> (q < d)%Q)) /\
    ((m == 0)%Q -> s = Num 0 /\ forall i' j' d, value_at data mask i' j' d -> ~ before (i', j') (i, j)).
Proof.
  intros ny nx cells data mask s v i j R Hy Hx Hc E. destruct (mask_data_spec ny nx cells data R Hy Hx Hc) as [mask' [HM HE]].
  destruct (Qmean (values_inside ny nx data mask')) as [|m] eqn:EM; [congruence|]. destruct HE as [s' [v' [i' [j' [HE1 HE2]]]]].
  rewrite E in HE1. injection HE1 as -> -> -> -> ->. exists m, v'. split; [exact EM|]. split; [reflexivity|].
  destruct (extremum_cases ny nx data mask' m s' v' i' j' R EM HE2) as [_ [B [D [P1 [P2 P3]]]]]. split; [exact B|]. split; [exact D|].
  split; [intro Hm; destruct (P1 Hm) as [-> G]; split; [reflexivity|exact G]|].
  split; [intro Hm; destruct (P2 Hm) as [-> G]; split; [reflexivity|exact G]|].
  intro Hm; destruct (P3 Hm) as [-> G]; split; [reflexivity|exact G].
Qed.
Print Assumptions C27_extremum_of_the_eddy.
Example C27_example : (exists mask, mask_data ring (demo_field 1) = Ok (mask, Num 1, (Num 9, 2%nat, 2%nat))) /\
  (exists mask, mask_data ring (demo_field (-1)) = Ok (mask, Num (-1), (Num (-9), 2%nat, 2%nat))).
Proof. split; eexists; vm_compute; reflexivity. Qed.
(** The computation always ends: a result, or ValueError exactly when no valid value is inside. *)
Theorem C27_raises_iff_no_value : forall ny nx cells data,
  rectangular ny nx data -> (0 < ny)%nat -> (0 < nx)%nat -> cells_within ny nx cells ->
  (exists mask s v i j, mask_data cells data = Ok (mask, s, (v, i, j)) /\ values_inside ny nx data mask <> []) \/
  (mask_data cells data = Err ValueError /\ forall i j q,
     (In (Z.of_nat i, Z.of_nat j) cells \/ ~ escapes ny nx (fun c => In (Z.of_nat (fst c), Z.of_nat (snd c)) cells) (i, j)) ->
     at_ data i j <> Some (Num q)).
Proof.
  intros ny nx cells data R Hy Hx Hc. destruct (mask_data_spec ny nx cells data R Hy Hx Hc) as [mask [HM HE]].
  destruct (Qmean (values_inside ny nx data mask)) as [|m] eqn:EM.
  - right. split; [exact HE|]. intros i j q Hin Hd. assert (Hv : In q (values_inside ny nx data mask)).
    { apply values_inside_iff; [exact R|]. exists i, j. split; [|exact Hd]. apply HM. split; [|exact Hin]. apply (rect_at ny nx data i j R). eauto. }
    destruct (values_inside ny nx data mask); [contradiction|discriminate].
  - left. destruct HE as [s [v [i [j [HE1 HE2]]]]]. exists mask, (Num s), (Num v), i, j. split; [exact HE1|]. intro H0. rewrite H0 in EM. discriminate.
Qed.
Print Assumptions C27_raises_iff_no_value.
Example C27_raises_example : mask_data ring (tabulate 5 5 (fun _ _ => NaN)) = Err ValueError.
Proof. vm_compute. reflexivity. Qed.

(** C28.  The mask holds exactly the cells on the contour and those that cannot be connected to the border of the window by
    horizontal and vertical steps that avoid the contour. *)
Theorem C28_mask_is_filled_contour : forall ny nx cells data mask s v i j,
  rectangular ny nx data -> (0 < ny)%nat -> (0 < nx)%nat -> cells_within ny nx cells ->
  mask_data cells data = Ok (mask, s, (v, i, j)) ->
  rectangular ny nx mask /\
  forall r c, (r < ny)%nat -> (c < nx)%nat ->
    (at_ mask r c = Some true <->
     (In (Z.of_nat r, Z.of_nat c) cells \/ ~ escapes ny nx (fun d => In (Z.of_nat (fst d), Z.of_nat (snd d)) cells) (r, c))).
Proof.
  intros ny nx cells data mask s v i j R Hy Hx Hc E. destruct (mask_data_spec ny nx cells data R Hy Hx Hc) as [mask' [[HM1 HM2] HE]].
  destruct (Qmean (values_inside ny nx data mask')) as [|m] eqn:EM; [congruence|]. destruct HE as [s' [v' [i' [j' [HE1 HE2]]]]].
  rewrite E in HE1. injection HE1 as -> -> -> -> ->. split; [exact HM1|]. intros r c Hr Hc'. rewrite HM2. unfold in_window. cbn [fst snd]. tauto.
Qed.
Print Assumptions C28_mask_is_filled_contour.
Example C28_example : exists s v, mask_data ring (demo_field 1) =
  Ok (tabulate 5 5 (fun i j => (Nat.leb 1 i && Nat.leb i 3 && Nat.leb 1 j && Nat.leb j 3)%bool), s, (v, 2%nat, 2%nat)).
Proof. eexists. eexists. vm_compute. reflexivity. Qed.

(** C29.  For contour cells inside the grid and a margin that is not negative the window lies within the grid, contains every
    contour cell with the margin wherever the grid permits, and the positions relative to the window are valid.  The two loops end. *)
Definition margin_ok (th : threshold) : Prop := match th with Width n => 0 <= n | _ => True end.
Theorem C29_window : forall H W th cells, cells <> [] -> cells_within H W cells -> margin_ok th ->
  exists y0 x0 y1 x1 rel v, window (Z.of_nat H, Z.of_nat W) th cells = Ok ((y0, x0), (y1, x1), rel) /\
    0 <= y0 < y1 /\ y1 <= Z.of_nat H /\ 0 <= x0 < x1 /\ x1 <= Z.of_nat W /\
    0 <= v /\ (forall n, th = Width n -> v = n) /\ (th = Auto -> 3 <= v) /\
    (forall c dy dx, In c cells -> - v <= dy <= v -> - v <= dx <= v ->
       0 <= fst c + dy < Z.of_nat H -> 0 <= snd c + dx < Z.of_nat W -> y0 <= fst c + dy < y1 /\ x0 <= snd c + dx < x1) /\
    Forall2 (fun c r => fst r = fst c - y0 /\ snd r = snd c - x0 /\ 0 <= fst r < y1 - y0 /\ 0 <= snd r < x1 - x0) cells rel.
Proof.
  intros H W th cells Hne Hc Hm. destruct (window_spec (Z.of_nat H, Z.of_nat W) th cells Hne) as [lo [hi [Hext EW]]]. cbn zeta in EW. cbn [fst snd] in EW.
  unfold cells_within in Hc. rewrite Forall_forall in Hc. destruct Hext as [HE [[c1 [I1 E1]] [[c2 [I2 E2]] [[c3 [I3 E3]] [c4 [I4 E4]]]]]].
  pose proof (HE _ I1). pose proof (HE _ I2). pose proof (HE _ I3). pose proof (HE _ I4).
  pose proof (Hc _ I1). pose proof (Hc _ I2). pose proof (Hc _ I3). pose proof (Hc _ I4).
  set (v := thresh_value th (fst hi - fst lo) (snd hi - snd lo)) in *.
  assert (Hv : 0 <= v /\ (th = Auto -> 3 <= v)). { unfold v, thresh_value. destruct th as [|n|]; cbn in Hm; [destruct (Z.leb_spec (Z.max (fst hi - fst lo) (snd hi - snd lo) / 2) 3); lia|split; [exact Hm|discriminate]|split; [lia|discriminate]]. }
  do 6 eexists. split; [exact EW|]. split; [lia|]. split; [lia|]. split; [lia|]. split; [lia|]. split; [apply Hv|].
  split; [intros n ->; reflexivity|]. split; [apply Hv|]. split.
  - intros c dy dx Hin D1 D2 D3 D4. pose proof (HE _ Hin). lia.
  - assert (G : forall l, (forall c, In c l -> In c cells) -> Forall2 (fun c r => fst r = fst c - Z.max (fst lo - v) 0 /\ snd r = snd c - Z.max (snd lo - v) 0 /\
        0 <= fst r < Z.min (fst hi + (v + 1)) (Z.of_nat H) - Z.max (fst lo - v) 0 /\ 0 <= snd r < Z.min (snd hi + (v + 1)) (Z.of_nat W) - Z.max (snd lo - v) 0)
        l (map (fun c => (fst c - Z.max (fst lo - v) 0, snd c - Z.max (snd lo - v) 0)) l)).
    { induction l as [|c l IH]; intro Hl; [constructor|]. cbn [map]. constructor; [|apply IH; intros d Hd; apply Hl; right; exact Hd].
      cbn [fst snd]. pose proof (HE _ (Hl c (or_introl eq_refl))). pose proof (Hc _ (Hl c (or_introl eq_refl))). lia. }
    apply G. auto.
Qed.
Print Assumptions C29_window.
Example C29_example : window (30, 8) Auto [(2, 3); (20, 6); (5, 7)] = Ok ((0, 0), (30, 8), [(2, 3); (20, 6); (5, 7)]) /\
  window (60, 40) Auto [(12, 13); (30, 16)] = Ok ((3, 4), (40, 26), [(9, 9); (27, 12)]).
Proof. split; vm_compute; reflexivity. Qed.
(** The margin and the window in numbers.  "auto": half of the larger side of the box of the contour cells, rounded down, and at least 3. *)
Definition margin_is (th : threshold) (height width v : Z) : Prop :=
  match th with Auto => v = Z.max 3 ((Z.max height width) / 2) | Width n => v = n | Other => v = 0 end.
Theorem C29_window_is_the_box_with_the_margin : forall H W th cells, cells <> [] -> cells_within H W cells -> margin_ok th ->
  exists top bottom left right v rel, margin_is th (bottom - top) (right - left) v /\
    (forall c, In c cells -> top <= fst c <= bottom /\ left <= snd c <= right) /\
    (exists c, In c cells /\ fst c = top) /\ (exists c, In c cells /\ fst c = bottom) /\ (exists c, In c cells /\ snd c = left) /\ (exists c, In c cells /\ snd c = right) /\
    window (Z.of_nat H, Z.of_nat W) th cells = Ok ((Z.max 0 (top - v), Z.max 0 (left - v)), (Z.min (Z.of_nat H) (bottom + v + 1), Z.min (Z.of_nat W) (right + v + 1)), rel).
Proof.
  intros H W th cells Hne Hc Hm. destruct (window_spec (Z.of_nat H, Z.of_nat W) th cells Hne) as [lo [hi [[HE [A [B [C D]]]] EW]]]. cbn zeta in EW. cbn [fst snd] in EW.
  set (v := thresh_value th (fst hi - fst lo) (snd hi - snd lo)) in *. do 6 eexists. split; [|split; [exact HE|]; split; [exact A|]; split; [exact B|]; split; [exact C|]; split; [exact D|]].
  - instantiate (1 := v). unfold margin_is, v, thresh_value. destruct th; try reflexivity. destruct (Z.leb_spec (Z.max (fst hi - fst lo) (snd hi - snd lo) / 2) 3); lia.
  - rewrite EW. f_equal. f_equal. f_equal; f_equal; lia.
Qed.
Print Assumptions C29_window_is_the_box_with_the_margin.
(** Whatever the threshold and the cells, the clamping ends and the corners are within the grid. *)
Theorem C29_clamping_terminates : forall H W th cells, cells <> [] ->
  exists bl tr rel, window (H, W) th cells = Ok (bl, tr, rel) /\ 0 <= fst bl /\ 0 <= snd bl /\ fst tr <= H /\ snd tr <= W.
Proof.
  intros H W th cells Hne. destruct (window_spec (H, W) th cells Hne) as [lo [hi [_ EW]]]. cbn zeta in EW. cbn [fst snd] in EW.
  do 3 eexists. split; [exact EW|]. cbn [fst snd]. lia.
Qed.
Print Assumptions C29_clamping_terminates.

(** C30.  On a grid built from 1-D coordinates every vertex is assigned the row and column of a grid point nearest to it among
    the preselected ones; ValueError when no grid point is preselected. *)
Theorem C30_regular_grid_mapping : forall tree xs ys vs px py,
  nearest_search tree -> monotone xs -> monotone ys -> ys <> [] ->
  Qmean (map fst vs) = Num px -> Qmean (map snd vs) = Num py ->
  let X := mesh_x xs ys in let Y := mesh_y xs ys in
  (exists cells, grid_cells tree X Y (finite_contour vs) = Ok cells /\ mapped_right X Y px py vs cells) \/
  (grid_cells tree X Y (finite_contour vs) = Err ValueError /\ forall i j p, ~ preselected X Y px py i j p).
Proof.
  intros tree xs ys vs px py HT Hx Hy Hne H1 H2 X Y. pose proof (mesh_x_rect xs ys) as RX. pose proof (mesh_y_rect xs ys) as RY.
  assert (Hny : (0 < length ys)%nat) by (destruct ys; [congruence|cbn; lia]).
  destruct (selected X Y (preselect X Y px py)) as [|p l] eqn:E.
  - right. assert (HN : forall i j p, ~ preselected X Y px py i j p).
    { intros i j p Hp. assert (In p []) as []. rewrite <- E. apply (in_selected X Y (length ys) (length xs)); eauto. }
    split; [|exact HN]. apply (no_preselection tree X Y vs px py (length ys) (length xs)); assumption.
  - left. destruct (proj1 (in_selected X Y (length ys) (length xs) px py p RX RY Hny)) as [i [j Hp]]; [rewrite E; left; reflexivity|].
    apply (block_mapping tree X Y vs px py (length ys) (length xs)); auto; [apply mesh_block; assumption|eauto].
Qed.
Print Assumptions C30_regular_grid_mapping.
Definition coord (n : nat) (a step : Q) : list Q := map (fun i => a + inject_Z (Z.of_nat i) * step)%Q (seq 0 n).
Lemma coord_increasing n a step : (0 < step)%Q -> increasing (coord n a step).
Proof.
  intros Hs i j u v Hij E1 E2. unfold coord in E1, E2. rewrite nth_error_map, nth_error_seq' in E1, E2.
  destruct (Nat.ltb i n); [|discriminate]. destruct (Nat.ltb j n); [|discriminate]. cbn [option_map plus] in E1, E2. injection E1 as <-. injection E2 as <-.
  assert (inject_Z (Z.of_nat i) < inject_Z (Z.of_nat j))%Q by (rewrite <- Zlt_Qlt; lia).
  assert (inject_Z (Z.of_nat i) * step < inject_Z (Z.of_nat j) * step)%Q by (apply Qmult_lt_r; assumption). lra.
Qed.
Lemma coord_decreasing n a step : (step < 0)%Q -> decreasing (coord n a step).
Proof.
  intros Hs i j u v Hij E1 E2. unfold coord in E1, E2. rewrite nth_error_map, nth_error_seq' in E1, E2.
  destruct (Nat.ltb i n); [|discriminate]. destruct (Nat.ltb j n); [|discriminate]. cbn [option_map plus] in E1, E2. injection E1 as <-. injection E2 as <-.
  assert (inject_Z (Z.of_nat i) < inject_Z (Z.of_nat j))%Q by (rewrite <- Zlt_Qlt; lia).
  assert (inject_Z (Z.of_nat i) * (- step) < inject_Z (Z.of_nat j) * (- step))%Q by (apply Qmult_lt_r; lra). lra.
Qed.
(** Longitudes 0..19, latitudes from 50 down to 21 (the preselection starts at row 5, column 3). *)
Example C30_example : monotone (coord 20 0 1) /\ monotone (coord 30 50 (-1)) /\
  grid_cells brute_tree (mesh_x (coord 20 0 1) (coord 30 50 (-1))) (mesh_y (coord 20 0 1) (coord 30 50 (-1)))
    (finite_contour [(7, 40); (8, 41); (9, 40); (8, 39)]%Q) = Ok [(10, 7); (9, 8); (10, 9); (11, 8)].
Proof. split; [left; apply coord_increasing; lra|]. split; [right; apply coord_decreasing; lra|]. vm_compute. reflexivity. Qed.

(** C31.  The same for 2-D coordinates fails: on a sheared grid a vertex that sits exactly on a grid point is assigned the row and
    column of another one. *)
Definition shear_X : grid Q := [[-6; -2; 2]; [-2; 2; 6]]%Q.
Definition shear_Y : grid Q := [[-1; -1; -1]; [1; 1; 1]]%Q.
Definition shear_vs : list (Q * Q) := [(-2, -1); (2, -1); (2, 1); (-2, 1)]%Q.
Theorem C31_curvilinear_mapping_refuted :
  ~ (forall tree ny nx X Y vs px py cells, nearest_search tree -> rectangular ny nx X -> rectangular ny nx Y -> (0 < ny)%nat ->
       Qmean (map fst vs) = Num px -> Qmean (map snd vs) = Num py -> grid_cells tree X Y (finite_contour vs) = Ok cells ->
       mapped_right X Y px py vs cells).
Proof.
  intro H. assert (Hc : grid_cells brute_tree shear_X shear_Y (finite_contour shear_vs) = Ok [(0, 1); (0, 2); (1, 2); (1, 1)]) by (vm_compute; reflexivity).
  assert (RX : rectangular 2 3 shear_X) by (split; [reflexivity|repeat constructor]).
  assert (RY : rectangular 2 3 shear_Y) by (split; [reflexivity|repeat constructor]).
  destruct (Qmean (map fst shear_vs)) as [|px] eqn:E1; [discriminate|]. destruct (Qmean (map snd shear_vs)) as [|py] eqn:E2; [discriminate|].
  specialize (H brute_tree 2%nat 3%nat shear_X shear_Y shear_vs px py _ brute_tree_nearest RX RY ltac:(lia) E1 E2 Hc).
  inversion H as [|? ? ? ? _ H2]; subst. inversion H2 as [|? ? ? ? _ H3]; subst. inversion H3 as [|? ? ? ? _ H4]; subst. inversion H4 as [|? ? ? ? H5 _]; subst.
  destruct H5 as [i [j [Eij [p [[[P1 P2] _] Hmin]]]]]. assert (i = 1%nat) as -> by (injection Eij; lia). assert (j = 1%nat) as -> by (injection Eij; lia).
  cbn in P1, P2. injection P1 as P1. injection P2 as P2. destruct p as [a b]. cbn in P1, P2. subst a b.
  vm_compute in E1, E2. injection E1 as <-. injection E2 as <-.
  assert (HP : preselected shear_X shear_Y (0 # 4) (0 # 4) 1 0 ((-2)%Q, 1%Q)).
  { split; [split; reflexivity|]. split; unfold near; cbn [fst snd]; vm_compute; discriminate. }
  specialize (Hmin _ _ _ HP). vm_compute in Hmin. apply Hmin. reflexivity.
Qed.
Print Assumptions C31_curvilinear_mapping_refuted.
(** It is right when the preselected grid points fill a block of rows and columns. *)
Theorem C31_block_preselection_mapping : forall tree ny nx X Y vs px py,
  nearest_search tree -> rectangular ny nx X -> rectangular ny nx Y -> (0 < ny)%nat ->
  Qmean (map fst vs) = Num px -> Qmean (map snd vs) = Num py -> block_preselection ny nx X Y px py ->
  (exists i j p, preselected X Y px py i j p) ->
  exists cells, grid_cells tree X Y (finite_contour vs) = Ok cells /\ mapped_right X Y px py vs cells.
Proof. intros tree ny nx X Y vs px py. exact (block_mapping tree X Y vs px py ny nx). Qed.
Print Assumptions C31_block_preselection_mapping.
(** A grid with 2-D coordinates, slightly rotated, wholly preselected. *)
Definition tilted_X : grid Q := [[0; 1; 2]; [-1 # 10; 9 # 10; 19 # 10]]%Q.
Definition tilted_Y : grid Q := [[0; 1 # 10; 2 # 10]; [1; 11 # 10; 12 # 10]]%Q.
Example C31_block_example : block_preselection 2 3 tilted_X tilted_Y 1 (1 # 2) /\
  grid_cells brute_tree tilted_X tilted_Y (finite_contour [(0, 0); (2, 0); (2, 1); (0, 1)]%Q) = Ok [(0, 0); (0, 2); (1, 2); (1, 0)].
Proof.
  split; [|vm_compute; reflexivity]. exists 0%nat, 3%nat, 0%nat, 2%nat. split; [lia|]. split; [lia|]. intros i j [a b] [G1 G2]. cbn [fst snd] in *.
  destruct i as [|[|i]]; [| |destruct i; discriminate]; (destruct j as [|[|[|j]]]; [| | |destruct j; discriminate]); cbn in G1, G2; injection G1 as <-; injection G2 as <-;
    (split; [intros _; lia|intros _; split; unfold near; vm_compute; discriminate]).
Qed.

(** C68.  A vertex is not always assigned the nearest grid point of the grid: the preselection (3 degrees plus 5 percent around the
    mean vertex) may leave it out ... *)
Theorem C68_nearest_of_whole_grid_refuted :
  ~ (forall tree xs ys vs cells, nearest_search tree -> monotone xs -> monotone ys ->
       grid_cells tree (mesh_x xs ys) (mesh_y xs ys) (finite_contour vs) = Ok cells ->
       Forall2 (fun c v => exists i j, c = (Z.of_nat i, Z.of_nat j) /\ nearest_of_all (mesh_x xs ys) (mesh_y xs ys) v i j) cells vs).
Proof.
  intro H. specialize (H brute_tree (coord 11 0 1) (coord 11 0 1) [(0, 5); (5, 0); (10, 5); (5, 10)]%Q [(5, 2); (2, 5); (5, 8); (8, 5)] brute_tree_nearest
    (or_introl (coord_increasing 11 0 1 ltac:(lra))) (or_introl (coord_increasing 11 0 1 ltac:(lra)))).
  assert (E : grid_cells brute_tree (mesh_x (coord 11 0 1) (coord 11 0 1)) (mesh_y (coord 11 0 1) (coord 11 0 1)) (finite_contour [(0, 5); (5, 0); (10, 5); (5, 10)]%Q)
              = Ok [(5, 2); (2, 5); (5, 8); (8, 5)]) by (vm_compute; reflexivity).
  specialize (H E). inversion H as [|? ? ? ? H5 _]; subst. destruct H5 as [i [j [Eij [p [[P1 P2] Hmin]]]]].
  assert (i = 5%nat) as -> by (injection Eij; lia). assert (j = 2%nat) as -> by (injection Eij; lia).
  destruct p as [a b]. vm_compute in P1, P2. injection P1 as <-. injection P2 as <-.
  assert (HP : grid_point (mesh_x (coord 11 0 1) (coord 11 0 1)) (mesh_y (coord 11 0 1) (coord 11 0 1)) 5 0 (0%Q, 5%Q)) by (split; reflexivity).
  specialize (Hmin _ _ _ HP). vm_compute in Hmin. apply Hmin. reflexivity.
Qed.
Print Assumptions C68_nearest_of_whole_grid_refuted.
(** ... and on a coarse grid no grid point at all is preselected: a contour inside the grid raises ValueError. *)
Theorem C68_coarse_grid_raises_refuted :
  ~ (forall tree xs ys vs, nearest_search tree -> monotone xs -> monotone ys -> xs <> [] -> ys <> [] -> vs <> [] ->
       (forall v, In v vs -> exists x0 x1 y0 y1, In x0 xs /\ In x1 xs /\ In y0 ys /\ In y1 ys /\ (x0 <= fst v <= x1)%Q /\ (y0 <= snd v <= y1)%Q) ->
       exists cells, grid_cells tree (mesh_x xs ys) (mesh_y xs ys) (finite_contour vs) = Ok cells).
Proof.
  intro H. destruct (H brute_tree (coord 3 0 10) (coord 3 0 10) [(4, 5); (5, 4); (6, 5); (5, 6)]%Q brute_tree_nearest) as [cells E];
    try (left; apply coord_increasing; lra); try discriminate.
  - intros v Hv. exists 0%Q, 10%Q, 0%Q, 10%Q. do 4 (split; [vm_compute; auto|]).
    repeat destruct Hv as [<-|Hv]; try contradiction; cbn [fst snd]; lra.
Qed.
Print Assumptions C68_coarse_grid_raises_refuted.
(** It is the nearest of the whole grid for every vertex whose nearest grid points are within the preselection. *)
Theorem C68_nearest_when_preselected : forall tree xs ys vs px py cells,
  nearest_search tree -> monotone xs -> monotone ys -> ys <> [] ->
  Qmean (map fst vs) = Num px -> Qmean (map snd vs) = Num py ->
  let X := mesh_x xs ys in let Y := mesh_y xs ys in
  grid_cells tree X Y (finite_contour vs) = Ok cells ->
  Forall2 (fun c v => (exists i j p, nearest_of_all X Y v i j /\ preselected X Y px py i j p) ->
                      exists i j, c = (Z.of_nat i, Z.of_nat j) /\ nearest_of_all X Y v i j) cells vs.
Proof.
  intros tree xs ys vs px py cells HT Hx Hy Hne H1 H2 X Y E.
  destruct (C30_regular_grid_mapping tree xs ys vs px py HT Hx Hy Hne H1 H2) as [[cells' [E' HM]]|[E' _]]; fold X Y in E'; rewrite E in E'; [|discriminate].
  injection E' as <-. unfold mapped_right in HM. fold X Y in HM. clear E H1 H2. induction HM as [|c v cl vl [i [j [-> [p [Hp Hmin]]]]] _ IH]; constructor; [|exact IH].
  intros [i0 [j0 [p0 [[q [Hq Hall]] Hp0]]]]. exists i, j. split; [reflexivity|]. exists p. split; [apply Hp|]. intros i' j' p' Hp'.
  apply Qle_trans with (dist2 p0 v); [apply (Hmin _ _ _ Hp0)|].
  assert (p0 = q) as ->. { destruct Hp0 as [[A1 A2] _]. destruct Hq as [B1 B2]. destruct p0, q; cbn in *. congruence. }
  apply (Hall _ _ _ Hp').
Qed.
Print Assumptions C68_nearest_when_preselected.

(** C69.  The position reported for an eddy is the position of a grid point, the extremum is the field there (0 when the field
    inside averages to 0), its sign is the sign reported, and no grid point on the contour exceeds it. *)
Theorem C69_extremum_at_a_grid_point : forall tree X Y field H W contour s v y x,
  rectangular H W X -> rectangular H W Y -> rectangular H W field ->
  data_in_contour tree X Y field contour = Ok (s, (v, y, x)) ->
  exists cells i j q sq vq xq yq, grid_cells tree X Y contour = Ok cells /\ s = Num sq /\ v = Num vq /\ x = Num xq /\ y = Num yq /\
    grid_point X Y i j (xq, yq) /\ at_ field i j = Some (Num q) /\
    ((sq = 0%Q /\ (vq == 0)%Q) \/ (sq = 1%Q /\ (vq == q)%Q /\ (0 < vq)%Q) \/ (sq = (-1)%Q /\ (vq == q)%Q /\ (vq < 0)%Q)) /\
    forall i' j' q', In (Z.of_nat i', Z.of_nat j') cells -> at_ field i' j' = Some (Num q') ->
      (sq = 1%Q -> (q' <= vq)%Q) /\ (sq = (-1)%Q -> (vq <= q')%Q).
Proof. exact data_in_contour_spec. Qed.
Print Assumptions C69_extremum_at_a_grid_point.
(** A bump on longitudes 0..19, latitudes 50..21: the top is reported at its coordinates. *)
Example C69_example :
  data_in_contour brute_tree (mesh_x (coord 20 0 1) (coord 30 50 (-1))) (mesh_y (coord 20 0 1) (coord 30 50 (-1)))
    (tabulate 30 20 (fun i j => Num (inject_Z (20 - Z.abs (Z.of_nat i - 10) - Z.abs (Z.of_nat j - 8)))))
    (finite_contour [(6, 40); (7, 41); (8, 42); (9, 41); (10, 40); (9, 39); (8, 38); (7, 39)]%Q) = Ok (Num 1, (Num 20, Num 40, Num 8)).
Proof. vm_compute. reflexivity. Qed.

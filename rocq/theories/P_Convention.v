(** C136: longitudes counted from another meridian *)
From Coq Require Import Lia Lqa.
From Verif Require Import M_Base M_Detect M_Window S_Detect S_Window S_Convention L_Window4 P_Window.
Open Scope Z_scope.

Lemma dist2_east d p v : (dist2 (vertex_east d p) (vertex_east d v) == dist2 p v)%Q.
Proof. unfold dist2, vertex_east. cbn [fst snd]. ring. Qed.
Lemma mesh_east d xs ys i j : at_ (mesh_x (east d xs) ys) i j = option_map (fun x => (x + d)%Q) (at_ (mesh_x xs ys) i j).
Proof. unfold at_, mesh_x, east. rewrite !nth_error_map. destruct (nth_error ys i); cbn [option_map]; [apply nth_error_map|reflexivity]. Qed.
Lemma mesh_y_east d xs ys : mesh_y (east d xs) ys = mesh_y xs ys.
Proof. unfold mesh_y, east. apply map_ext. intro y. rewrite map_map. reflexivity. Qed.
Lemma point_east d xs ys i j p : grid_point (mesh_x xs ys) (mesh_y xs ys) i j p -> grid_point (mesh_x (east d xs) ys) (mesh_y (east d xs) ys) i j (vertex_east d p).
Proof. intros [A B]. split; [rewrite mesh_east, A; reflexivity|]. rewrite mesh_y_east. exact B. Qed.
Lemma point_east_inv d xs ys i j p : grid_point (mesh_x (east d xs) ys) (mesh_y (east d xs) ys) i j p -> exists p0, p = vertex_east d p0 /\ grid_point (mesh_x xs ys) (mesh_y xs ys) i j p0.
Proof.
  intros [A B]. rewrite mesh_east in A. rewrite mesh_y_east in B. destruct (at_ (mesh_x xs ys) i j) as [x|] eqn:E; [|discriminate]. cbn in A. injection A as A. exists (x, snd p). split; [destruct p; cbn in *; subst; reflexivity|]. split; [exact E|exact B].
Qed.
Lemma nearest_east d xs ys v i j : nearest_of_all (mesh_x (east d xs) ys) (mesh_y (east d xs) ys) (vertex_east d v) i j -> nearest_of_all (mesh_x xs ys) (mesh_y xs ys) v i j.
Proof.
  intros (p & G & M). apply point_east_inv in G. destruct G as (p0 & -> & G). exists p0. split; [exact G|]. intros i' j' p' G'. specialize (M i' j' _ (point_east d xs ys i' j' p' G')). rewrite !dist2_east in M. exact M.
Qed.
Lemma nearest_east' d xs ys v i j : nearest_of_all (mesh_x xs ys) (mesh_y xs ys) v i j -> nearest_of_all (mesh_x (east d xs) ys) (mesh_y (east d xs) ys) (vertex_east d v) i j.
Proof.
  intros (p & G & M). exists (vertex_east d p). split; [apply point_east, G|]. intros i' j' p' G'. apply point_east_inv in G'. destruct G' as (p0 & -> & G'). rewrite !dist2_east. apply (M i' j' p0 G').
Qed.
Lemma east_monotone d xs : monotone xs -> monotone (east d xs).
Proof.
  intros [H|H]; [left|right]; intros i j a b Hij A B; unfold east in A, B; rewrite nth_error_map in A, B; destruct (nth_error xs i) as [x|] eqn:Ex; try discriminate; destruct (nth_error xs j) as [y|] eqn:Ey; try discriminate; cbn in A, B; injection A as <-; injection B as <-; specialize (H i j x y Hij Ex Ey); lra.
Qed.
Lemma slice_map {A B} (f : A -> B) lo hi l : slice lo hi (map f l) = map f (slice lo hi l).
Proof. unfold slice. rewrite skipn_map, firstn_map. reflexivity. Qed.
Lemma slice2_map {A B} (f : A -> B) y0 y1 x0 x1 g : slice2 y0 y1 x0 x1 (map (map f) g) = map (map f) (slice2 y0 y1 x0 x1 g).
Proof. unfold slice2. rewrite slice_map, !map_map. apply map_ext. intro r. apply slice_map. Qed.
Lemma at_map {A B} (f : A -> B) g i j : at_ (map (map f) g) i j = option_map f (at_ g i j).
Proof. unfold at_. rewrite nth_error_map. destruct (nth_error g i); cbn [option_map]; [apply nth_error_map|reflexivity]. Qed.
Lemma mesh_x_east d xs ys : mesh_x (east d xs) ys = map (map (fun x => (x + d)%Q)) (mesh_x xs ys).
Proof. unfold mesh_x, east. rewrite map_map. reflexivity. Qed.

(** C136: if every vertex has one nearest grid point, and this point is among the preselected ones for both ways of counting, the analysis gives the same eddy, its longitude d larger *)
Theorem C136_longitude_convention : forall tree xs ys field vs d px py px', nearest_search tree -> monotone xs -> monotone ys -> ys <> [] -> vs <> [] ->
  Qmean (map fst vs) = Num px -> Qmean (map snd vs) = Num py -> Qmean (map fst (map (vertex_east d) vs)) = Num px' ->
  (forall v, In v vs -> exists i j p p', only_nearest (mesh_x xs ys) (mesh_y xs ys) v i j /\ preselected (mesh_x xs ys) (mesh_y xs ys) px py i j p /\ preselected (mesh_x (east d xs) ys) (mesh_y xs ys) px' py i j p') ->
  match data_in_contour tree (mesh_x xs ys) (mesh_y xs ys) field (finite_contour vs) with
  | Ok (s, (v, y, Num x)) => data_in_contour tree (mesh_x (east d xs) ys) (mesh_y xs ys) field (finite_contour (map (vertex_east d) vs)) = Ok (s, (v, y, Num (x + d)))
  | Ok (_, (_, _, NaN)) => False
  | Err e => data_in_contour tree (mesh_x (east d xs) ys) (mesh_y xs ys) field (finite_contour (map (vertex_east d) vs)) = Err e
  end.
Proof.
  intros tree xs ys field vs d px py px' HT Mx My Ny Nv E1 E2 E3 H. destruct vs as [|v0 vs0] eqn:Evs; [congruence|]. rewrite <- Evs in *. clear Nv.
  assert (E2' : Qmean (map snd (map (vertex_east d) vs)) = Num py) by (rewrite map_map; exact E2).
  assert (V0 : In v0 vs) by (rewrite Evs; left; reflexivity). clear Evs.
  destruct (C30_regular_grid_mapping tree xs ys vs px py HT Mx My Ny E1 E2) as [(cells & G & R)|(_ & Bad)]; [|exfalso; destruct (H v0 V0) as (i & j & p & p' & _ & P & _); exact (Bad i j p P)].
  destruct (C30_regular_grid_mapping tree (east d xs) ys (map (vertex_east d) vs) px' py HT (east_monotone d xs Mx) My Ny E3 E2') as [(cells' & G' & R')|(_ & Bad)]; [|exfalso; destruct (H v0 V0) as (i & j & p & p' & _ & _ & P); rewrite mesh_y_east in Bad; exact (Bad i j p' P)].
  pose proof (C68_nearest_when_preselected tree xs ys vs px py cells HT Mx My Ny E1 E2 G) as F. pose proof (C68_nearest_when_preselected tree (east d xs) ys (map (vertex_east d) vs) px' py cells' HT (east_monotone d xs Mx) My Ny E3 E2' G') as F'. cbv zeta in F, F'. clear R R'.
  assert (EC : cells' = cells).
  { clear G G' E1 E2 E3 E2' V0. revert cells' F'. induction F as [|c v cs vs F1 F2 IH]; intros cells' F'; [inversion F'; reflexivity|]. cbn [map] in F'. inversion F' as [|c' ? cs' ? X1 X2]; subst.
    f_equal; [|apply IH; [intros w Hw; apply H; right; exact Hw|exact X2]].
    destruct (H v (or_introl eq_refl)) as (i & j & p & p' & [N U] & P & P'). destruct F1 as (a & b & -> & Na); [exists i, j, p; auto|]. destruct X1 as (a' & b' & -> & Na').
    - exists i, j, p'. split; [apply nearest_east', N|]. rewrite mesh_y_east. exact P'.
    - apply nearest_east in Na'. destruct (U _ _ Na) as [-> ->]. destruct (U _ _ Na') as [-> ->]. reflexivity. }
  subst cells'. rewrite mesh_y_east in G'. unfold data_in_contour. rewrite G, G'. cbn [bind].
  assert (L1 : length (mesh_x (east d xs) ys) = length (mesh_x xs ys)) by (unfold mesh_x; rewrite !map_length; reflexivity).
  assert (L2 : width_of (mesh_x (east d xs) ys) = width_of (mesh_x xs ys)) by (unfold mesh_x; destruct ys; [reflexivity|]; cbn; unfold east; apply map_length).
  rewrite L1, L2. destruct (window _ Auto cells) as [[[bl tr] rel]|e]; cbn [bind]; [|reflexivity].
  destruct (mask_data rel _) as [[[m s] [[v yi] xi]]|e]; cbn [bind]; [|reflexivity]. rewrite mesh_x_east, slice2_map, at_map.
  destruct (at_ (slice2 _ _ _ _ (mesh_x xs ys)) yi xi) as [x|]; cbn [option_map]; [|reflexivity]. destruct (at_ (slice2 _ _ _ _ (mesh_y xs ys)) yi xi); reflexivity.
Qed.
Print Assumptions C136_longitude_convention.

(** *** Counting from another meridian changes the eddy, or lets the analysis fail *)
Definition long_ring : list (Q * Q) := [(0, 0); (1, 0); (2, 0); (3, 0); (4, 0); (5, 0); (6, 0); (7, 0); (8, 0); (9, 0); (10, 0); (11, 0); (12, 0); (12, 1); (12, 2); (12, 3); (12, 4); (11, 4); (10, 4); (9, 4); (8, 4); (7, 4); (6, 4); (5, 4); (4, 4); (3, 4); (2, 4); (1, 4); (0, 4); (0, 3); (0, 2); (0, 1)]%Q.
Definition one_summit : grid num := tabulate 5 13 (fun i j => if (Nat.eqb i 2 && Nat.eqb j 1)%bool then Num 5 else Num 1).
(** The summit lies inside the contour; with the longitudes 0 .. 12 the analysis misses it, with 360 .. 372 it finds it. *)
Theorem C136_longitude_convention_refuted : exists tree xs ys field vs, nearest_search tree /\ increasing xs /\ increasing ys /\ (forall v, In v vs -> within_grid xs ys v) /\
  data_in_contour tree (mesh_x xs ys) (mesh_y xs ys) field (finite_contour vs) = Ok (Num 1, (Num 1, Num 0, Num 3)) /\
  data_in_contour tree (mesh_x (east 360 xs) ys) (mesh_y xs ys) field (finite_contour (map (vertex_east 360) vs)) = Ok (Num 1, (Num 5, Num 2, Num 361)).
Proof.
  exists brute_tree, (coord 13 0 1), (coord 5 0 1), one_summit, long_ring. split; [exact brute_tree_nearest|]. split; [apply coord_increasing; lra|]. split; [apply coord_increasing; lra|]. split; [|split; vm_compute; reflexivity].
  intros v Hv. exists (nth 0%nat (coord 13 0 1) 0%Q), (nth 12%nat (coord 13 0 1) 0%Q), (nth 0%nat (coord 5 0 1) 0%Q), (nth 4%nat (coord 5 0 1) 0%Q). do 4 (split; [apply nth_In; cbn; lia|]).
  unfold long_ring in Hv. cbn [In] in Hv. repeat (destruct Hv as [<-|Hv]; [cbn; split; split; vm_compute; discriminate|]). destruct Hv.
Qed.
Print Assumptions C136_longitude_convention_refuted.
(** On a coarse grid the analysis fails near the meridian from which longitudes are counted and not 360 degrees further. *)
Theorem C136_fails_near_longitude_zero_refuted : exists tree xs ys field vs, nearest_search tree /\ increasing xs /\ increasing ys /\ (forall v, In v vs -> within_grid xs ys v) /\
  data_in_contour tree (mesh_x xs ys) (mesh_y xs ys) field (finite_contour vs) = Err ValueError /\
  exists r, data_in_contour tree (mesh_x (east 360 xs) ys) (mesh_y xs ys) field (finite_contour (map (vertex_east 360) vs)) = Ok r.
Proof.
  exists brute_tree, (coord 4 0 8), (coord 4 0 1), (tabulate 4 4 (fun _ _ => Num 1)), ([(10, 1); (14, 1); (14, 2); (10, 2)])%Q. split; [exact brute_tree_nearest|]. split; [apply coord_increasing; lra|]. split; [apply coord_increasing; lra|]. split; [|split; [vm_compute; reflexivity|eexists; vm_compute; reflexivity]].
  intros v Hv. exists (nth 0%nat (coord 4 0 8) 0%Q), (nth 3%nat (coord 4 0 8) 0%Q), (nth 0%nat (coord 4 0 1) 0%Q), (nth 3%nat (coord 4 0 1) 0%Q). do 4 (split; [apply nth_In; cbn; lia|]).
  cbn [In] in Hv. repeat (destruct Hv as [<-|Hv]; [cbn; split; split; vm_compute; discriminate|]). destruct Hv.
Qed.
Print Assumptions C136_fails_near_longitude_zero_refuted.

(** *** The hypotheses of C136_longitude_convention are met by a contour through grid points *)
Lemma at_mesh_x xs ys i j x : at_ (mesh_x xs ys) i j = Some x <-> (i < length ys)%nat /\ nth_error xs j = Some x.
Proof.
  unfold at_, mesh_x. rewrite nth_error_map. destruct (nth_error ys i) as [y|] eqn:E; cbn [option_map].
  - assert (i < length ys)%nat by (apply nth_error_Some; congruence). tauto.
  - apply nth_error_None in E. split; [discriminate|]. intros [L _]. lia.
Qed.
Lemma at_mesh_y xs ys i j y : at_ (mesh_y xs ys) i j = Some y <-> nth_error ys i = Some y /\ (j < length xs)%nat.
Proof.
  unfold at_, mesh_y. rewrite nth_error_map. destruct (nth_error ys i) as [y'|] eqn:E; cbn [option_map]; [|split; [discriminate|intros [X _]; discriminate]].
  rewrite nth_error_map. destruct (nth_error xs j) as [x|] eqn:Ej; cbn [option_map].
  - assert (j < length xs)%nat by (apply nth_error_Some; congruence). tauto.
  - apply nth_error_None in Ej. split; [discriminate|]. intros [_ L]. lia.
Qed.
Lemma square_nonneg (a : Q) : (0 <= a * a)%Q.
Proof. destruct (Qlt_le_dec a 0); nra. Qed.
Lemma square_zero (a : Q) : (a * a <= 0)%Q -> (a == 0)%Q.
Proof. intro H. destruct (Qlt_le_dec a 0) as [L|L]; [nra|]. destruct (Qlt_le_dec 0 a) as [L'|L']; [nra|]. lra. Qed.
Lemma on_a_grid_point xs ys i j x y v : increasing xs -> increasing ys -> nth_error xs j = Some x -> nth_error ys i = Some y -> v = (x, y) -> only_nearest (mesh_x xs ys) (mesh_y xs ys) v i j.
Proof.
  intros Ix Iy Ex Ey ->. assert (G : grid_point (mesh_x xs ys) (mesh_y xs ys) i j (x, y)).
  { split; [apply at_mesh_x; split; [apply nth_error_Some; congruence|exact Ex]|apply at_mesh_y; split; [exact Ey|apply nth_error_Some; congruence]]. }
  assert (Z0 : (dist2 (x, y) (x, y) == 0)%Q) by (unfold dist2; cbn [fst snd]; ring). split.
  - exists (x, y). split; [exact G|]. intros i' j' p' _. rewrite Z0. unfold dist2. pose proof (square_nonneg (fst p' - fst (x, y))). pose proof (square_nonneg (snd p' - snd (x, y))). lra.
  - intros i' j' ([a b] & [A B] & M). specialize (M i j (x, y) G). rewrite Z0 in M. unfold dist2 in M. cbn [fst snd] in *. apply at_mesh_x in A. apply at_mesh_y in B. destruct A as [_ A], B as [B _].
    pose proof (square_nonneg (a - x)) as S1. pose proof (square_nonneg (b - y)) as S2. assert (Ea : (a - x == 0)%Q) by (apply square_zero; lra). assert (Eb : (b - y == 0)%Q) by (apply square_zero; lra). split.
    + destruct (lt_eq_lt_dec i' i) as [[L|L]|L]; [specialize (Iy i' i b y L B Ey); lra|exact L|specialize (Iy i i' y b L Ey B); lra].
    + destruct (lt_eq_lt_dec j' j) as [[L|L]|L]; [specialize (Ix j' j a x L A Ex); lra|exact L|specialize (Ix j j' x a L Ex A); lra].
Qed.
Definition small_ring : list (Q * Q) := map (fun ij => (nth (snd ij) (coord 5 0 1) 0%Q, nth (fst ij) (coord 5 0 1) 0%Q)) [(1, 2); (2, 3); (3, 2); (2, 1)]%nat.
Example C136_case : nearest_search brute_tree /\ monotone (coord 5 0 1) /\ exists px py px', Qmean (map fst small_ring) = Num px /\ Qmean (map snd small_ring) = Num py /\ Qmean (map fst (map (vertex_east 360) small_ring)) = Num px' /\
  (forall v, In v small_ring -> exists i j p p', only_nearest (mesh_x (coord 5 0 1) (coord 5 0 1)) (mesh_y (coord 5 0 1) (coord 5 0 1)) v i j /\
     preselected (mesh_x (coord 5 0 1) (coord 5 0 1)) (mesh_y (coord 5 0 1) (coord 5 0 1)) px py i j p /\ preselected (mesh_x (east 360 (coord 5 0 1)) (coord 5 0 1)) (mesh_y (coord 5 0 1) (coord 5 0 1)) px' py i j p') /\
  exists r, data_in_contour brute_tree (mesh_x (coord 5 0 1) (coord 5 0 1)) (mesh_y (coord 5 0 1) (coord 5 0 1)) (tabulate 5 5 (fun i j => Num (inject_Z (Z.of_nat (i + j))))) (finite_contour small_ring) = Ok r.
Proof.
  split; [exact brute_tree_nearest|]. split; [left; apply coord_increasing; lra|]. do 3 eexists. split; [vm_compute; reflexivity|]. split; [vm_compute; reflexivity|]. split; [vm_compute; reflexivity|]. split; [|eexists; vm_compute; reflexivity].
  intros v Hv. unfold small_ring in Hv. apply in_map_iff in Hv. destruct Hv as ([i j] & <- & Hij). exists i, j. cbn [fst snd].
  exists (nth j (coord 5 0 1) 0%Q, nth i (coord 5 0 1) 0%Q), (nth j (east 360 (coord 5 0 1)) 0%Q, nth i (coord 5 0 1) 0%Q). cbn [In] in Hij.
  repeat (destruct Hij as [E|Hij]; [injection E as <- <-; split; [eapply on_a_grid_point; [apply coord_increasing; lra|apply coord_increasing; lra|reflexivity|reflexivity|reflexivity]|split; (split; [split; reflexivity|split; unfold near; vm_compute; discriminate])]|]). destruct Hij.
Qed.

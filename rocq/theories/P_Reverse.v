(** C139: cyclones and anticyclones are measured alike *)
From Coq Require Import Lia Lqa Permutation.
From Verif Require Import M_Base M_Detect M_Window S_Detect S_Window S_Reverse L_Window2 L_Window3 L_Window4 P_Window.
Open Scope Z_scope.

(** Equal numbers, whatever their fractions *)
Definition alike (a b : num) : Prop := match a, b with Num p, Num q => (p == q)%Q | NaN, NaN => True | _, _ => False end.
Lemma alike_refl a : alike a a.
Proof. destruct a; cbn; [exact I|reflexivity]. Qed.
Lemma alike_trans a b c : alike a b -> alike b c -> alike a c.
Proof. destruct a, b, c; cbn; try tauto. intros A B. rewrite A. exact B. Qed.
Lemma fold_alike l : forall a b, alike a b -> alike (fold_left nadd l a) (fold_left nadd l b).
Proof. induction l as [|x l IH]; intros a b H; [exact H|]. cbn [fold_left]. apply IH. destruct a, b, x; cbn in *; try tauto. rewrite H. reflexivity. Qed.
Lemma fold_perm l l' : Permutation l l' -> forall a, alike (fold_left nadd l a) (fold_left nadd l' a).
Proof.
  induction 1 as [|x l l' _ IH|x y l|l l' l'' _ IH1 _ IH2]; intro a; [apply alike_refl|apply IH| |eapply alike_trans; [apply IH1|apply IH2]].
  cbn [fold_left]. apply fold_alike. destruct a, x, y; cbn; try exact I. ring.
Qed.
Lemma ndiv_alike a b n : alike a b -> alike (ndiv a n) (ndiv b n).
Proof. destruct n, a, b; cbn; try tauto. intro H. rewrite H. reflexivity. Qed.
Lemma nmean_perm l l' : Permutation l l' -> alike (nmean l) (nmean l').
Proof. intro H. unfold nmean. rewrite (Permutation_length H). apply ndiv_alike, fold_perm, H. Qed.
Lemma fold_minus l : forall a b, alike b (minus a) -> alike (fold_left nadd (map minus l) b) (minus (fold_left nadd l a)).
Proof. induction l as [|x l IH]; intros a b H; [exact H|]. cbn [fold_left map]. apply IH. destruct a, b, x; cbn in *; try tauto. rewrite H. ring. Qed.
Lemma nmean_minus l : alike (nmean (map minus l)) (minus (nmean l)).
Proof.
  unfold nmean. rewrite map_length. eapply alike_trans; [apply ndiv_alike, fold_minus with (a := Num 0); cbn; reflexivity|]. unfold nsum. destruct (fold_left nadd l (Num 0)) as [|q]; destruct (length l) as [|n]; cbn; try exact I.
  unfold Qdiv. ring.
Qed.
Lemma filter_minus l : filter (fun x => negb (is_nan x)) (map minus l) = map minus (filter (fun x => negb (is_nan x)) l).
Proof. induction l as [|[|q] l IH]; [reflexivity|exact IH|]. cbn. f_equal. exact IH. Qed.
Lemma nsign_alike a b : alike a b -> nsign a = nsign b.
Proof. destruct a, b; cbn; try tauto. intro H. unfold nsign. f_equal. rewrite !H. reflexivity. Qed.
Lemma nsign_minus a : nsign (minus a) = minus (nsign a).
Proof.
  destruct a as [|q]; [reflexivity|]. cbn. f_equal. destruct (Qle_bool q 0) eqn:E1, (Qle_bool 0 q) eqn:E2, (Qle_bool (- q) 0) eqn:E3, (Qle_bool 0 (- q)) eqn:E4; try reflexivity; exfalso;
    repeat match goal with H : Qle_bool _ _ = true |- _ => apply Qle_bool_iff in H | H : Qle_bool ?a ?b = false |- _ => assert (~ (a <= b)%Q) by (intro X; apply Qle_bool_iff in X; congruence); clear H end; lra.
Qed.
Lemma sign_minus l : nsign (nnanmean (map minus l)) = minus (nsign (nnanmean l)).
Proof. unfold nnanmean. rewrite filter_minus, <- nsign_minus. apply nsign_alike, nmean_minus. Qed.
Lemma nmul_minus s x : nmul (minus s) (minus x) = nmul s x.
Proof. destruct s as [|[a p]], x as [|[b q]]; try reflexivity. cbn. unfold Qopp, Qmult. cbn. do 2 f_equal. lia. Qed.
Lemma nmul_minus_l s x : nmul (minus s) x = minus (nmul s x).
Proof. destruct s as [|[a p]], x as [|[b q]]; try reflexivity. cbn. unfold Qopp, Qmult. cbn. do 2 f_equal. lia. Qed.

(** *** Lists in another order *)
Lemma sequence_perm {A B} (f : A -> option B) l l' : Permutation l l' ->
  match sequence (map f l) with Some r => exists r', sequence (map f l') = Some r' /\ Permutation r r' | None => sequence (map f l') = None end.
Proof.
  induction 1 as [|x l l' _ IH|x y l|l l' l'' _ IH1 _ IH2]; cbn [map sequence].
  - exists []. split; [reflexivity|constructor].
  - destruct (f x) as [b|]; [|reflexivity]. destruct (sequence (map f l)) as [r|]; [|rewrite IH; reflexivity]. destruct IH as (r' & -> & P). eexists. split; [reflexivity|]. constructor. exact P.
  - destruct (f x) as [b|], (f y) as [b'|]; try reflexivity; destruct (sequence (map f l)) as [r|]; try reflexivity. eexists. split; [reflexivity|]. constructor.
  - destruct (sequence (map f l)) as [r|].
    + destruct IH1 as (r' & E1 & P1). rewrite E1 in IH2. destruct IH2 as (r'' & E2 & P2). exists r''. split; [exact E2|]. eapply Permutation_trans; eassumption.
    + rewrite IH1 in IH2. exact IH2.
Qed.
Lemma zmax_perm c l c' l' : Permutation (c :: l) (c' :: l') -> zmax_list c l = zmax_list c' l'.
Proof.
  intro P. destruct (zmax_list_spec l c) as [[A1 A2] A3], (zmax_list_spec l' c') as [[B1 B2] B3]. apply (Permutation_in _ P) in A3. apply (Permutation_in _ (Permutation_sym P)) in B3. apply Z.le_antisymm.
  - destruct A3 as [E|A3]; [rewrite <- E at 1; exact B1|exact (B2 _ A3)].
  - destruct B3 as [E|B3]; [rewrite <- E at 1; exact A1|exact (A2 _ B3)].
Qed.
Lemma zmin_perm c l c' l' : Permutation (c :: l) (c' :: l') -> zmin_list c l = zmin_list c' l'.
Proof.
  intro P. destruct (zmin_list_spec l c) as [[A1 A2] A3], (zmin_list_spec l' c') as [[B1 B2] B3]. apply (Permutation_in _ P) in A3. apply (Permutation_in _ (Permutation_sym P)) in B3. apply Z.le_antisymm.
  - destruct B3 as [E|B3]; [rewrite <- E; exact A1|exact (A2 _ B3)].
  - destruct A3 as [E|A3]; [rewrite <- E; exact B1|exact (B2 _ A3)].
Qed.
Lemma window_perm shape th cells cells' : Permutation cells cells' ->
  match window shape th cells with Ok (bl, tr, rel) => exists rel', window shape th cells' = Ok (bl, tr, rel') /\ Permutation rel rel' | Err e => window shape th cells' = Err e end.
Proof.
  intro P. destruct cells as [|c l]; [apply Permutation_nil in P; subst; reflexivity|]. destruct cells' as [|c' l']; [apply Permutation_sym, Permutation_nil in P; discriminate|].
  unfold window. rewrite (zmax_perm (fst c) (map fst l) (fst c') (map fst l') (Permutation_map fst P)), (zmax_perm (snd c) (map snd l) (snd c') (map snd l') (Permutation_map snd P)), (zmin_perm (fst c) (map fst l) (fst c') (map fst l') (Permutation_map fst P)), (zmin_perm (snd c) (map snd l) (snd c') (map snd l') (Permutation_map snd P)).
  destruct (clamp_max _ _ _) as [tr|e]; cbn [bind]; [|reflexivity]. destruct (clamp_min _ _) as [bl|e]; cbn [bind]; [|reflexivity]. eexists. split; [reflexivity|]. apply Permutation_map, P.
Qed.
Lemma near_alike v p q : (p == q)%Q -> near_value v p = near_value v q.
Proof. intro H. unfold near_value. rewrite H. reflexivity. Qed.
Lemma preselect_alike X Y px py px' py' : (px == px')%Q -> (py == py')%Q -> preselect X Y px py = preselect X Y px' py'.
Proof.
  intros A B. unfold preselect, tabulate. apply map_ext. intro i. apply map_ext. intro j. destruct (at_ X i j), (at_ Y i j); try reflexivity. rewrite (near_alike _ _ _ A), (near_alike _ _ _ B). reflexivity.
Qed.
Lemma cells_perm tree X Y c c' : each_alone tree -> Permutation c c' ->
  match grid_cells tree X Y c with Ok cells => exists cells', grid_cells tree X Y c' = Ok cells' /\ Permutation cells cells' | Err e => grid_cells tree X Y c' = Err e end.
Proof.
  intros [answer T] P. unfold grid_cells. pose proof (nmean_perm _ _ (Permutation_map fst P)) as A. pose proof (nmean_perm _ _ (Permutation_map snd P)) as B.
  destruct (nmean (map fst c)) as [|px], (nmean (map fst c')) as [|px']; try contradiction; [reflexivity|]. destruct (nmean (map snd c)) as [|py], (nmean (map snd c')) as [|py']; try contradiction; [reflexivity|].
  cbn in A, B. rewrite (preselect_alike X Y px py px' py' A B). cbv zeta. destruct (selected X Y (preselect X Y px' py')) as [|p l]; [reflexivity|].
  pose proof (sequence_perm finite_point c c' P) as S. destruct (sequence (map finite_point c)) as [vs|]; [|rewrite S; reflexivity]. destruct S as (vs' & -> & Pv). rewrite (T (p :: l) vs), (T (p :: l) vs') by discriminate.
  pose proof (sequence_perm (unravel (largest (sum_x (preselect X Y px' py'))) (largest (sum_y (preselect X Y px' py')))) _ _ (Permutation_map (answer (p :: l)) Pv)) as S.
  destruct (sequence (map (unravel _ _) (map (answer (p :: l)) vs))) as [ij|]; [|rewrite S; reflexivity]. destruct S as (ij' & -> & Pi). eexists. split; [reflexivity|]. apply Permutation_map, Pi.
Qed.

(** *** The mask depends on the set of cells only *)
Lemma dilate_ext ny nx f f' cur : (forall i j, f i j = f' i j) -> dilate ny nx f cur = dilate ny nx f' cur.
Proof. intro H. unfold dilate, tabulate. apply map_ext. intro i. apply map_ext. intro j. rewrite H. reflexivity. Qed.
Lemma invade_ext ny nx f f' : (forall i j, f i j = f' i j) -> forall fuel cur, invade fuel ny nx f cur = invade fuel ny nx f' cur.
Proof. intros H fuel. induction fuel as [|fuel IH]; intro cur; cbn [invade]; rewrite (dilate_ext ny nx f f' cur H); [reflexivity|]. rewrite IH. reflexivity. Qed.
Lemma fill_ext ny nx f f' : (forall i j, f i j = f' i j) -> fill_holes ny nx f = fill_holes ny nx f'.
Proof. intro H. unfold fill_holes. rewrite (invade_ext ny nx _ (fun i j => negb (f' i j))); [reflexivity|]. intros i j. rewrite H. reflexivity. Qed.
Lemma existsb_perm {A} (f : A -> bool) l l' : Permutation l l' -> existsb f l = existsb f l'.
Proof. induction 1; cbn; [reflexivity|congruence| |congruence]. rewrite !Bool.orb_assoc. f_equal. apply Bool.orb_comm. Qed.
Lemma map_tabulate {A B} (h : A -> B) ny nx f : map (map h) (tabulate ny nx f) = tabulate ny nx (fun i j => h (f i j)).
Proof. unfold tabulate. rewrite map_map. apply map_ext. intro i. apply map_map. Qed.
Lemma at_minus g i j : at_ (reversed_field g) i j = option_map minus (at_ g i j).
Proof. unfold at_, reversed_field. rewrite nth_error_map. destruct (nth_error g i); cbn [option_map]; [apply nth_error_map|reflexivity]. Qed.
Lemma mask_perm cells cells' data : Permutation cells cells' ->
  mask_data cells' (reversed_field data) = match mask_data cells data with Ok (m, s, (v, i, j)) => Ok (m, minus s, (minus v, i, j)) | Err e => Err e end.
Proof.
  intro P. unfold mask_data. replace (length (reversed_field data)) with (length data) by (unfold reversed_field; rewrite map_length; reflexivity).
  replace (match reversed_field data with r :: _ => length r | [] => O end) with (match data with r :: _ => length r | [] => O end) by (destruct data; [reflexivity|]; cbn; rewrite map_length; reflexivity).
  set (ny := length data). set (nx := match data with r :: _ => length r | [] => O end).
  pose proof (sequence_perm (np_cell ny nx) _ _ P) as S. destruct (sequence (map (np_cell ny nx) cells)) as [cs|]; [|rewrite S; reflexivity]. destruct S as (cs' & -> & Pc).
  rewrite (fill_ext ny nx (fun i j => existsb (cell_eqb (i, j)) cs') (fun i j => existsb (cell_eqb (i, j)) cs)) by (intros i j; symmetry; apply existsb_perm, Pc).
  destruct (fill_holes ny nx _) as [inside|e]; cbn [bind]; [|reflexivity]. cbv zeta.
  set (g := fun i j => match at_ inside i j, at_ data i j with Some true, Some x => x | _, _ => NaN end).
  replace (List.concat (tabulate ny nx (fun i j => match at_ inside i j, at_ (reversed_field data) i j with Some true, Some x => x | _, _ => NaN end))) with (map minus (List.concat (tabulate ny nx g))).
  - set (flat := List.concat (tabulate ny nx g)). rewrite sign_minus. rewrite (map_map minus (nmul (minus (nsign (nnanmean flat))))). rewrite (map_ext _ (nmul (nsign (nnanmean flat))) (nmul_minus (nsign (nnanmean flat)))).
    destruct (nan_argmax _ 0 None) as [[m k]|]; [|reflexivity]. rewrite nmul_minus_l. reflexivity.
  - rewrite concat_map, map_tabulate. f_equal. unfold tabulate. apply map_ext. intro i. apply map_ext. intro j. unfold g. rewrite at_minus. destruct (at_ inside i j) as [[|]|]; try reflexivity. destruct (at_ data i j); reflexivity.
Qed.
Lemma slice_minus {A B} (f : A -> B) lo hi l : slice lo hi (map f l) = map f (slice lo hi l).
Proof. unfold slice. rewrite skipn_map, firstn_map. reflexivity. Qed.
Lemma slice2_minus y0 y1 x0 x1 g : slice2 y0 y1 x0 x1 (reversed_field g) = reversed_field (slice2 y0 y1 x0 x1 g).
Proof. unfold slice2, reversed_field. rewrite slice_minus, !map_map. apply map_ext. intro r. apply slice_minus. Qed.

(** C139: reversing the signs of the field, and listing the vertices of the contour in any other order (as it happens to a
    closed contour when the field is reversed), gives the opposite sign and extremum at the same place, or the same error. *)
Theorem C139_highs_and_lows_alike : forall tree X Y field c c', each_alone tree -> Permutation c c' ->
  data_in_contour tree X Y (reversed_field field) c' = reversed_outcome (data_in_contour tree X Y field c).
Proof.
  intros tree X Y field c c' T P. unfold data_in_contour. pose proof (cells_perm tree X Y c c' T P) as C. destruct (grid_cells tree X Y c) as [cells|e]; [|rewrite C; reflexivity]. destruct C as (cells' & -> & Pc). cbn [bind].
  pose proof (window_perm (Z.of_nat (length X), Z.of_nat (width_of X)) Auto _ _ Pc) as W. destruct (window _ Auto cells) as [[[bl tr] rel]|e]; [|rewrite W; reflexivity]. destruct W as (rel' & -> & Pr). cbn [bind].
  rewrite slice2_minus, (mask_perm rel rel' _ Pr). destruct (mask_data rel _) as [[[m s] [[v yi] xi]]|e]; cbn [bind]; [|reflexivity].
  destruct (at_ (slice2 _ _ _ _ X) yi xi); [|reflexivity]. destruct (at_ (slice2 _ _ _ _ Y) yi xi); reflexivity.
Qed.
Print Assumptions C139_highs_and_lows_alike.

(** The hypotheses are met: a ring of vertices listed clockwise and anticlockwise around a summit, in the field and in the field reversed *)
Definition around : list (Q * Q) := [(1, 2); (2, 3); (3, 2); (2, 1); (1, 2)]%Q.
Definition summit : grid num := tabulate 5 5 (fun i j => if (Nat.eqb i 2 && Nat.eqb j 2)%bool then Num 7 else if Nat.eqb i 0 then NaN else Num 1).
Lemma brute_tree_each_alone : each_alone brute_tree.
Proof. exists (fun points v => match points with [] => 0%nat | p :: t => nearest_from t v 1 0 (dist2 p v) end). intros [|p t] vertices N; [congruence|reflexivity]. Qed.
Example C139_case : each_alone brute_tree /\ Permutation (finite_contour around) (finite_contour (rev around)) /\
  data_in_contour brute_tree (mesh_x (coord 5 0 1) (coord 5 0 1)) (mesh_y (coord 5 0 1) (coord 5 0 1)) summit (finite_contour around) = Ok (Num 1, (Num 7, Num 2, Num 2)) /\
  data_in_contour brute_tree (mesh_x (coord 5 0 1) (coord 5 0 1)) (mesh_y (coord 5 0 1) (coord 5 0 1)) (reversed_field summit) (finite_contour (rev around)) = Ok (Num (-1), (Num (-7), Num 2, Num 2)).
Proof. split; [exact brute_tree_each_alone|]. split; [apply Permutation_map, Permutation_rev|]. split; vm_compute; reflexivity. Qed.

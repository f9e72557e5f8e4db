(** C141: the vertex from which a closed contour is listed *)
From Coq Require Import Lia Lqa.
From Verif Require Import M_Base M_Detect M_Window S_Detect S_Window S_Convention S_Start L_Window2 L_Window3 L_Window4 P_Window P_Reverse P_Convention.
Open Scope Z_scope.

Definition same_set {A} (l l' : list A) : Prop := forall x, In x l <-> In x l'.
Lemma same_set_map {A B} (f : A -> B) l l' : same_set l l' -> same_set (map f l) (map f l').
Proof. intros H y. rewrite !in_map_iff. split; intros (x & E & I); exists x; (split; [exact E|apply H, I]). Qed.
Lemma sequence_in {A B} (f : A -> option B) l r : sequence (map f l) = Some r -> forall y, In y r <-> exists x, In x l /\ f x = Some y.
Proof.
  revert r. induction l as [|a l IH]; intros r E y; cbn [map sequence] in E; [injection E as <-; split; [intros []|intros (x & [] & _)]|].
  destruct (f a) as [b|] eqn:Ea; [|discriminate]. destruct (sequence (map f l)) as [r0|]; [|discriminate]. assert (r = b :: r0) as -> by congruence. cbn [In]. rewrite (IH r0 eq_refl y). split.
  - intros [<-|(x & I & E')]; [exists a; auto|exists x; auto].
  - intros (x & [<-|I] & E'); [left; congruence|right; exists x; auto].
Qed.
Lemma sequence_none {A B} (f : A -> option B) l : sequence (map f l) = None <-> exists x, In x l /\ f x = None.
Proof.
  induction l as [|a l IH]; cbn [map sequence]; [split; [discriminate|intros (x & [] & _)]|]. destruct (f a) as [b|] eqn:Ea.
  - destruct (sequence (map f l)) as [r|].
    + split; [discriminate|]. intros (x & [<-|I] & E); [congruence|]. assert (Some r = None) by (apply (proj2 IH); exists x; auto). discriminate.
    + split; [|reflexivity]. intros _. destruct (proj1 IH eq_refl) as (x & I & E). exists x. split; [right; exact I|exact E].
  - split; [|reflexivity]. intros _. exists a. split; [left; reflexivity|exact Ea].
Qed.
Lemma sequence_set {A B} (f : A -> option B) l l' : same_set l l' ->
  match sequence (map f l) with Some r => exists r', sequence (map f l') = Some r' /\ same_set r r' | None => sequence (map f l') = None end.
Proof.
  intro H. destruct (sequence (map f l)) as [r|] eqn:E.
  - destruct (sequence (map f l')) as [r'|] eqn:E'.
    + exists r'. split; [reflexivity|]. intro y. rewrite (sequence_in f l r E y), (sequence_in f l' r' E' y). split; intros (x & I & X); exists x; (split; [apply H, I|exact X]).
    + exfalso. apply sequence_none in E'. destruct E' as (x & I & X). assert (N : sequence (map f l) = None) by (apply sequence_none; exists x; split; [apply H, I|exact X]). congruence.
  - apply sequence_none in E. destruct E as (x & I & X). apply sequence_none. exists x. split; [apply H, I|exact X].
Qed.
Lemma zmax_set c l c' l' : same_set (c :: l) (c' :: l') -> zmax_list c l = zmax_list c' l'.
Proof.
  intro P. destruct (zmax_list_spec l c) as [[A1 A2] A3], (zmax_list_spec l' c') as [[B1 B2] B3]. apply P in A3. apply P in B3. apply Z.le_antisymm.
  - destruct A3 as [E|A3]; [rewrite <- E at 1; exact B1|exact (B2 _ A3)].
  - destruct B3 as [E|B3]; [rewrite <- E at 1; exact A1|exact (A2 _ B3)].
Qed.
Lemma zmin_set c l c' l' : same_set (c :: l) (c' :: l') -> zmin_list c l = zmin_list c' l'.
Proof.
  intro P. destruct (zmin_list_spec l c) as [[A1 A2] A3], (zmin_list_spec l' c') as [[B1 B2] B3]. apply P in A3. apply P in B3. apply Z.le_antisymm.
  - destruct B3 as [E|B3]; [rewrite <- E; exact A1|exact (A2 _ B3)].
  - destruct A3 as [E|A3]; [rewrite <- E; exact B1|exact (B2 _ A3)].
Qed.
Lemma window_set shape th cells cells' : same_set cells cells' ->
  match window shape th cells with Ok (bl, tr, rel) => exists rel', window shape th cells' = Ok (bl, tr, rel') /\ same_set rel rel' | Err e => window shape th cells' = Err e end.
Proof.
  intro P. destruct cells as [|c l]; [destruct cells' as [|c' l']; [reflexivity|exfalso; apply (P c'); left; reflexivity]|]. destruct cells' as [|c' l']; [exfalso; apply (P c); left; reflexivity|].
  unfold window. rewrite (zmax_set (fst c) (map fst l) (fst c') (map fst l') (same_set_map fst _ _ P)), (zmax_set (snd c) (map snd l) (snd c') (map snd l') (same_set_map snd _ _ P)), (zmin_set (fst c) (map fst l) (fst c') (map fst l') (same_set_map fst _ _ P)), (zmin_set (snd c) (map snd l) (snd c') (map snd l') (same_set_map snd _ _ P)).
  destruct (clamp_max _ _ _) as [tr|e]; cbn [bind]; [|reflexivity]. destruct (clamp_min _ _) as [bl|e]; cbn [bind]; [|reflexivity]. eexists. split; [reflexivity|]. apply same_set_map, P.
Qed.
Lemma existsb_set {A} (f : A -> bool) l l' : same_set l l' -> existsb f l = existsb f l'.
Proof.
  intro H. destruct (existsb f l) eqn:E, (existsb f l') eqn:E'; try reflexivity; [apply existsb_exists in E|apply existsb_exists in E']; [destruct E as (x & I & F)|destruct E' as (x & I & F)]; apply H in I.
  - assert (existsb f l' = true) by (apply existsb_exists; exists x; auto). congruence.
  - assert (existsb f l = true) by (apply existsb_exists; exists x; auto). congruence.
Qed.
Lemma mask_set cells cells' data : same_set cells cells' -> mask_data cells' data = mask_data cells data.
Proof.
  intro P. unfold mask_data. set (ny := length data). set (nx := match data with r :: _ => length r | [] => O end).
  pose proof (sequence_set (np_cell ny nx) _ _ P) as S. destruct (sequence (map (np_cell ny nx) cells)) as [cs|]; [|rewrite S; reflexivity]. destruct S as (cs' & -> & Pc).
  rewrite (fill_ext ny nx (fun i j => existsb (cell_eqb (i, j)) cs') (fun i j => existsb (cell_eqb (i, j)) cs)) by (intros i j; symmetry; apply existsb_set, Pc). reflexivity.
Qed.

(** The data found depend on the set of cells only *)
Lemma data_set tree X Y field c c' cells cells' : grid_cells tree X Y c = Ok cells -> grid_cells tree X Y c' = Ok cells' -> same_set cells cells' -> data_in_contour tree X Y field c' = data_in_contour tree X Y field c.
Proof.
  intros E E' H. unfold data_in_contour. rewrite E, E'. cbn [bind]. pose proof (window_set (Z.of_nat (length X), Z.of_nat (width_of X)) Auto _ _ H) as W.
  destruct (window _ Auto cells) as [[[bl tr] rel]|e]; [|rewrite W; reflexivity]. destruct W as (rel' & -> & Pr). cbn [bind]. rewrite (mask_set rel rel' _ Pr). reflexivity.
Qed.
Lemma listed_in k vs x : In x (listed_from k vs) <-> In x vs.
Proof.
  unfold listed_from. assert (G : In x (skipn k vs ++ firstn k vs) <-> In x vs).
  { rewrite <- (firstn_skipn k vs) at 3. rewrite !in_app_iff. tauto. }
  cbv zeta. destruct (skipn k vs ++ firstn k vs) as [|v l]; [exact G|]. rewrite in_app_iff, G. split; [|tauto]. intros [I|[<-|[]]]; [exact I|]. apply G. left. reflexivity.
Qed.

(** C141: if every vertex has one nearest grid point, and this point is preselected wherever the list begins, the analysis of
    the contour does not depend on where its list begins. *)
Theorem C141_first_vertex : forall tree xs ys field vs k px py px' py', nearest_search tree -> monotone xs -> monotone ys -> vs <> [] ->
  Qmean (map fst (listed_from 0 vs)) = Num px -> Qmean (map snd (listed_from 0 vs)) = Num py -> Qmean (map fst (listed_from k vs)) = Num px' -> Qmean (map snd (listed_from k vs)) = Num py' ->
  (forall v, In v vs -> exists i j p, only_nearest (mesh_x xs ys) (mesh_y xs ys) v i j /\ preselected (mesh_x xs ys) (mesh_y xs ys) px py i j p /\ preselected (mesh_x xs ys) (mesh_y xs ys) px' py' i j p) ->
  data_in_contour tree (mesh_x xs ys) (mesh_y xs ys) field (finite_contour (listed_from k vs)) = data_in_contour tree (mesh_x xs ys) (mesh_y xs ys) field (finite_contour (listed_from 0 vs)).
Proof.
  intros tree xs ys field vs k px py px' py' HT Mx My Nv E1 E2 E3 E4 H. destruct vs as [|v0 vs0] eqn:Evs; [congruence|]. rewrite <- Evs in *. assert (V0 : In v0 vs) by (rewrite Evs; left; reflexivity). clear Evs Nv.
  assert (Ny : ys <> []). { destruct (H v0 V0) as (i & j & p & _ & [[A _] _] & _). apply at_mesh_x in A. destruct A as [A _]. destruct ys; [cbn in A; lia|discriminate]. }
  destruct (C30_regular_grid_mapping tree xs ys (listed_from 0 vs) px py HT Mx My Ny E1 E2) as [(cells & G & _)|(_ & Bad)]; [|exfalso; destruct (H v0 V0) as (i & j & p & _ & P & _); exact (Bad i j p P)].
  destruct (C30_regular_grid_mapping tree xs ys (listed_from k vs) px' py' HT Mx My Ny E3 E4) as [(cells' & G' & _)|(_ & Bad)]; [|exfalso; destruct (H v0 V0) as (i & j & p & _ & _ & P); exact (Bad i j p P)].
  pose proof (C68_nearest_when_preselected tree xs ys _ px py cells HT Mx My Ny E1 E2 G) as F. pose proof (C68_nearest_when_preselected tree xs ys _ px' py' cells' HT Mx My Ny E3 E4 G') as F'. cbv zeta in F, F'.
  assert (K : forall l cs q q', Forall2 (fun c v => (exists i j p, nearest_of_all (mesh_x xs ys) (mesh_y xs ys) v i j /\ preselected (mesh_x xs ys) (mesh_y xs ys) q q' i j p) -> exists i j, c = (Z.of_nat i, Z.of_nat j) /\ nearest_of_all (mesh_x xs ys) (mesh_y xs ys) v i j) cs l ->
      (forall v, In v l -> exists i j p, only_nearest (mesh_x xs ys) (mesh_y xs ys) v i j /\ preselected (mesh_x xs ys) (mesh_y xs ys) q q' i j p) ->
      forall c, In c cs <-> exists v i j, In v l /\ only_nearest (mesh_x xs ys) (mesh_y xs ys) v i j /\ c = (Z.of_nat i, Z.of_nat j)).
  { clear. intros l cs q q' F. induction F as [|c v cs l F1 _ IH]; intros HV d; [split; [intros []|intros (v & i & j & [] & _)]|].
    destruct (HV v (or_introl eq_refl)) as (i & j & p & [N Un] & P). destruct F1 as (a & b & -> & Na); [exists i, j, p; auto|]. destruct (Un _ _ Na) as [-> ->]. cbn [In]. rewrite (IH (fun w Hw => HV w (or_intror Hw)) d). split.
    - intros [<-|(w & i' & j' & I & O & E)]; [exists v, i, j; split; [left; reflexivity|]; split; [split; assumption|reflexivity]|exists w, i', j'; auto].
    - intros (w & i' & j' & [<-|I] & O & E); [left|right; exists w, i', j'; auto]. destruct O as [O _]. destruct (Un _ _ O) as [-> ->]. congruence. }
  apply (data_set tree _ _ field _ _ cells cells' G G'). intro c.
  rewrite (K _ _ _ _ F), (K _ _ _ _ F').
  - split; intros (v & i & j & I & O & E); exists v, i, j; (split; [|split; assumption]); apply listed_in; apply listed_in in I; exact I.
  - intros v Hv. apply listed_in in Hv. destruct (H v Hv) as (i & j & p & O & _ & P). exists i, j, p. auto.
  - intros v Hv. apply listed_in in Hv. destruct (H v Hv) as (i & j & p & O & P & _). exists i, j, p. auto.
Qed.
Print Assumptions C141_first_vertex.

(** The preselection is around the mean of the vertices, in which the first one counts twice: a summit near one end of the
    contour is found or missed. *)
Definition long_triangle : list (Q * Q) := map (fun ij => (nth (snd ij) (coord 8 0 1) 0%Q, nth (fst ij) (coord 8 0 1) 0%Q)) [(1, 0); (1, 6); (2, 3)]%nat.
Definition end_summit : grid num := tabulate 8 8 (fun i j => if (Nat.eqb i 1 && Nat.eqb j 6)%bool then Num 5 else Num 1).
Theorem C141_first_vertex_refuted : exists tree xs ys field vs k, nearest_search tree /\ increasing xs /\ increasing ys /\ (forall v, In v vs -> within_grid xs ys v) /\
  data_in_contour tree (mesh_x xs ys) (mesh_y xs ys) field (finite_contour (listed_from 0 vs)) = Ok (Num 1, (Num 1, Num 1, Num 0)) /\
  data_in_contour tree (mesh_x xs ys) (mesh_y xs ys) field (finite_contour (listed_from k vs)) = Ok (Num 1, (Num 5, Num 1, Num 6)).
Proof.
  exists brute_tree, (coord 8 0 1), (coord 8 0 1), end_summit, long_triangle, 1%nat. split; [exact brute_tree_nearest|]. split; [apply coord_increasing; lra|]. split; [apply coord_increasing; lra|]. split; [|split; vm_compute; reflexivity].
  intros v Hv. exists (nth 0%nat (coord 8 0 1) 0%Q), (nth 7%nat (coord 8 0 1) 0%Q), (nth 0%nat (coord 8 0 1) 0%Q), (nth 7%nat (coord 8 0 1) 0%Q). do 4 (split; [apply nth_In; cbn; lia|]).
  unfold long_triangle in Hv. cbn [map In fst snd] in Hv. repeat (destruct Hv as [<-|Hv]; [cbn; split; split; vm_compute; discriminate|]). destruct Hv.
Qed.
Print Assumptions C141_first_vertex_refuted.

(** The hypotheses are met by a small contour *)
Example C141_case : nearest_search brute_tree /\ monotone (coord 5 0 1) /\ listed_from 2 small_ring <> listed_from 0 small_ring /\ exists px py px' py',
  Qmean (map fst (listed_from 0 small_ring)) = Num px /\ Qmean (map snd (listed_from 0 small_ring)) = Num py /\ Qmean (map fst (listed_from 2 small_ring)) = Num px' /\ Qmean (map snd (listed_from 2 small_ring)) = Num py' /\
  (forall v, In v small_ring -> exists i j p, only_nearest (mesh_x (coord 5 0 1) (coord 5 0 1)) (mesh_y (coord 5 0 1) (coord 5 0 1)) v i j /\
     preselected (mesh_x (coord 5 0 1) (coord 5 0 1)) (mesh_y (coord 5 0 1) (coord 5 0 1)) px py i j p /\ preselected (mesh_x (coord 5 0 1) (coord 5 0 1)) (mesh_y (coord 5 0 1) (coord 5 0 1)) px' py' i j p) /\
  exists r, data_in_contour brute_tree (mesh_x (coord 5 0 1) (coord 5 0 1)) (mesh_y (coord 5 0 1) (coord 5 0 1)) (tabulate 5 5 (fun i j => Num (inject_Z (Z.of_nat (i + j))))) (finite_contour (listed_from 0 small_ring)) = Ok r.
Proof.
  split; [exact brute_tree_nearest|]. split; [left; apply coord_increasing; lra|]. split; [vm_compute; discriminate|]. do 4 eexists. split; [vm_compute; reflexivity|]. split; [vm_compute; reflexivity|]. split; [vm_compute; reflexivity|]. split; [vm_compute; reflexivity|]. split; [|eexists; vm_compute; reflexivity].
  intros v Hv. unfold small_ring in Hv. apply in_map_iff in Hv. destruct Hv as ([i j] & <- & Hij). exists i, j. cbn [fst snd]. exists (nth j (coord 5 0 1) 0%Q, nth i (coord 5 0 1) 0%Q). cbn [In] in Hij.
  repeat (destruct Hij as [E|Hij]; [injection E as <- <-; split; [eapply on_a_grid_point; [apply coord_increasing; lra|apply coord_increasing; lra|reflexivity|reflexivity|reflexivity]|split; (split; [split; reflexivity|split; unfold near; vm_compute; discriminate])]|]). destruct Hij.
Qed.

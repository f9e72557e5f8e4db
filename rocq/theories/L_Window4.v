(** Vertices are mapped to the right cells when the preselection is a block, in particular on meshes of 1-D coordinates. *)
From Coq Require Import Lia Lqa.
From Verif Require Import M_Base M_Detect S_Detect M_Window S_Window L_Base L_Detect L_Window L_Window2 L_Window3.
Open Scope Z_scope.

Lemma near_value_iff v p : near_value v p = true <-> near v p.
Proof. unfold near_value, near. apply Qle_bool_iff. Qed.
Lemma preselect_at X Y ny nx px py i j : rectangular ny nx X -> rectangular ny nx Y -> (0 < ny)%nat ->
  at_ (preselect X Y px py) i j = Some true <-> exists p, preselected X Y px py i j p.
Proof.
  intros RX RY Hny. unfold preselect. rewrite (proj1 RX). assert (width_of X = nx) as ->.
  { destruct RX as [R1 R2]. destruct X as [|r g]; [cbn in R1; lia|]. inversion R2. assumption. }
  rewrite at_tabulate. unfold preselected, grid_point. split.
  - intro H. destruct (_ && _)%bool; [|discriminate]. destruct (at_ X i j) as [x|]; [|discriminate]. destruct (at_ Y i j) as [y|]; [|discriminate].
    injection H as H. apply andb_true_iff in H as [H1 H2]. apply near_value_iff in H1, H2. exists (x, y). auto.
  - intros [[x y] [[E1 E2] [N1 N2]]]. cbn [fst snd] in *. assert (Hij : (i < ny /\ j < nx)%nat) by (apply (rect_at ny nx X i j RX); eauto).
    rewrite (proj2 (Nat.ltb_lt i ny)), (proj2 (Nat.ltb_lt j nx)) by apply Hij. cbn [andb]. rewrite E1, E2.
    rewrite (proj2 (near_value_iff x px)), (proj2 (near_value_iff y py)) by assumption. reflexivity.
Qed.
Lemma preselect_rect X Y ny nx px py : rectangular ny nx X -> (0 < ny)%nat -> rectangular ny nx (preselect X Y px py).
Proof.
  intros RX Hny. unfold preselect. rewrite (proj1 RX). assert (width_of X = nx) as ->.
  { destruct RX as [R1 R2]. destruct X as [|r g]; [cbn in R1; lia|]. inversion R2. assumption. }
  apply tabulate_rect.
Qed.
Lemma in_selected X Y ny nx px py p : rectangular ny nx X -> rectangular ny nx Y -> (0 < ny)%nat ->
  In p (selected X Y (preselect X Y px py)) <-> exists i j, preselected X Y px py i j p.
Proof.
  intros RX RY Hny. unfold selected. rewrite in_flat_map. split.
  - intros [[i j] [_ H]]. cbn [fst snd] in H. destruct (at_ (preselect X Y px py) i j) as [[|]|] eqn:E; try contradiction.
    apply (preselect_at X Y ny nx) in E as [q E]; auto. pose proof E as [[E1 E2] _]. rewrite E1, E2 in H. destruct H as [<-|[]]. exists i, j. destruct q; exact E.
  - intros [i [j E]]. assert (at_ (preselect X Y px py) i j = Some true) by (apply (preselect_at X Y ny nx); eauto). exists (i, j). split.
    + assert (Hij : (i < ny /\ j < nx)%nat). { apply (rect_at ny nx X i j RX). destruct E as [[E1 _] _]. eauto. }
      unfold c_order. apply in_flat_map. exists i. split; [apply in_seq; rewrite (proj1 RX); lia|]. apply in_map, in_seq.
      destruct RX as [R1 R2]. destruct X as [|r g]; [cbn in R1; lia|]. inversion R2; subst. cbn [width_of]. lia.
    + cbn [fst snd]. rewrite H. destruct E as [[E1 E2] _]. rewrite E1, E2. left. destruct p; reflexivity.
Qed.

Lemma finite_points vs : sequence (map finite_point (finite_contour vs)) = Some vs.
Proof. induction vs as [|[x y] vs IH]; [reflexivity|]. cbn [finite_contour map sequence finite_point fst snd]. unfold finite_contour in IH. rewrite IH. reflexivity. Qed.
Lemma finite_fst vs : map fst (finite_contour vs) = map Num (map fst vs).
Proof. unfold finite_contour. rewrite !map_map. reflexivity. Qed.
Lemma finite_snd vs : map snd (finite_contour vs) = map Num (map snd vs).
Proof. unfold finite_contour. rewrite !map_map. reflexivity. Qed.
Lemma nmean_Num l : nmean (map Num l) = Qmean l.
Proof.
  rewrite nmean_num by (induction l; [reflexivity|assumption]). f_equal. induction l as [|x l IH]; [reflexivity|]. cbn. f_equal. exact IH.
Qed.

Lemma grid_cells_unfold tree X Y vs px py : Qmean (map fst vs) = Num px -> Qmean (map snd vs) = Num py ->
  grid_cells tree X Y (finite_contour vs) =
  (let m := preselect X Y px py in
   match selected X Y m with
   | [] => Err ValueError
   | p :: l => match sequence (map (unravel (largest (sum_x m)) (largest (sum_y m))) (tree (p :: l) vs)) with
               | Some ij => Ok (map (fun c => (Z.of_nat (fst c + argmax (sum_y m)), Z.of_nat (snd c + argmax (sum_x m)))) ij)
               | None => Err ValueError end
   end).
Proof.
  intros H1 H2. unfold grid_cells. rewrite finite_fst, finite_snd, !nmean_Num, H1, H2, finite_points. cbn zeta.
  destruct (selected X Y (preselect X Y px py)); reflexivity.
Qed.
Lemma no_preselection tree X Y vs px py ny nx : rectangular ny nx X -> rectangular ny nx Y -> (0 < ny)%nat ->
  Qmean (map fst vs) = Num px -> Qmean (map snd vs) = Num py -> (forall i j p, ~ preselected X Y px py i j p) ->
  grid_cells tree X Y (finite_contour vs) = Err ValueError.
Proof.
  intros RX RY Hny H1 H2 H. rewrite (grid_cells_unfold tree X Y vs px py H1 H2). cbn zeta.
  destruct (selected X Y (preselect X Y px py)) as [|p l] eqn:E; [reflexivity|]. exfalso.
  destruct (proj1 (in_selected X Y ny nx px py p RX RY Hny)) as [i [j Hp]]; [rewrite E; left; reflexivity|]. exact (H i j p Hp).
Qed.
Lemma block_mapping tree X Y vs px py ny nx : nearest_search tree -> rectangular ny nx X -> rectangular ny nx Y -> (0 < ny)%nat ->
  Qmean (map fst vs) = Num px -> Qmean (map snd vs) = Num py -> block_preselection ny nx X Y px py ->
  (exists i j p, preselected X Y px py i j p) ->
  exists cells, grid_cells tree X Y (finite_contour vs) = Ok cells /\ mapped_right X Y px py vs cells.
Proof.
  intros HT RX RY Hny H1 H2 [a [w [b [h [Ha [Hb HB]]]]]] [i0 [j0 [p0 Hp0]]].
  assert (Hpos : (b <= i0 < b + h)%nat /\ (a <= j0 < a + w)%nat) by (apply (HB i0 j0 p0); [apply Hp0|apply Hp0]).
  assert (EM : preselect X Y px py = tabulate ny nx (fun i j => (between b h i && between a w j)%bool)).
  { apply (rect_ext ny nx); [apply preselect_rect; assumption|apply tabulate_rect|]. intros i j Hi Hj. rewrite at_tabulate.
    rewrite (proj2 (Nat.ltb_lt i ny) Hi), (proj2 (Nat.ltb_lt j nx) Hj). cbn [andb].
    destruct (proj1 (rect_at ny nx _ i j (preselect_rect X Y ny nx px py RX Hny)) (conj Hi Hj)) as [v Hv]. rewrite Hv. f_equal.
    apply Bool.eq_iff_eq_true. rewrite andb_true_iff, !between_iff.
    destruct (proj1 (rect_at ny nx X i j RX) (conj Hi Hj)) as [x Hx]. destruct (proj1 (rect_at ny nx Y i j RY) (conj Hi Hj)) as [y Hy].
    rewrite <- (HB i j (x, y)) by (split; assumption). split.
    - intros ->. apply (preselect_at X Y ny nx) in Hv as [q [[G1 G2] G3]]; auto. rewrite Hx in G1. rewrite Hy in G2. injection G1 as ->. injection G2 as ->. exact G3.
    - intro G. assert (at_ (preselect X Y px py) i j = Some true) as G2 by (apply (preselect_at X Y ny nx); auto; exists (x, y); split; [split; assumption|exact G]). congruence. }
  assert (Hw : (0 < w)%nat) by lia. assert (Hh : (0 < h)%nat) by lia.
  rewrite (grid_cells_unfold tree X Y vs px py H1 H2). cbn zeta.
  destruct (selected X Y (preselect X Y px py)) as [|p l] eqn:E.
  { exfalso. assert (In p0 []) as []. rewrite <- E. apply (in_selected X Y ny nx); eauto. }
  rewrite EM, (sum_x_rect ny nx a w b h), (sum_y_rect ny nx a w b h) by lia.
  destruct (argmax_step nx a w h Hh Hw Ha) as [X1 X2]. destruct (argmax_step ny b h w Hw Hh Hb) as [Y1 Y2]. rewrite X1, X2, Y1, Y2.
  pose proof (HT (p :: l) vs ltac:(discriminate)) as HN.
  assert (HS : forall k q, nth_error (p :: l) k = Some q -> (k < h * w)%nat /\ preselected X Y px py (b + k / w) (a + k mod w) q).
  { intros k q Hk. rewrite <- E, EM in Hk. pose proof Hk as Hk'. apply (selected_nth ny nx a w b h Hw Hh Ha Hb X Y RX RY) in Hk as [K ->].
    split; [exact K|]. pose proof (Nat.mod_upper_bound k w ltac:(lia)) as U1. assert (U2 : (k / w < h)%nat) by (apply Nat.div_lt_upper_bound; lia).
    pose proof (pt_grid ny nx X Y RX RY (b + k / w) (a + k mod w) ltac:(lia) ltac:(lia)) as GP. split; [exact GP|].
    apply (HB _ _ _ GP). clear - U1 U2. revert U1 U2. generalize (Nat.div k w) (Nat.modulo k w). intros; lia. }
  assert (HAll : forall i j q, preselected X Y px py i j q -> In q (p :: l)) by (intros i j q Hq; rewrite <- E; apply (in_selected X Y ny nx); eauto).
  revert HN. generalize (tree (p :: l) vs). intros ks HN. clear H1 H2. unfold mapped_right.
  induction HN as [|k v ks vs [q [Hk Hmin]] HN IH].
  - exists []. split; [reflexivity|constructor].
  - destruct (HS k q Hk) as [K Hq]. cbn [map sequence]. unfold unravel at 1. rewrite (proj2 (Nat.ltb_lt k (h * w)) K).
    destruct IH as [cells [IH1 IH2]]. destruct (sequence _) as [ij|]; [|discriminate]. injection IH1 as <-.
    eexists. split; [reflexivity|]. cbn [map fst snd]. constructor; [|exact IH2].
    exists (b + k / w)%nat, (a + k mod w)%nat. split; [f_equal; f_equal; lia|]. exists q. split; [exact Hq|]. intros i' j' p' Hp'. apply Hmin. eapply HAll, Hp'.
Qed.

(** *** meshes *)
Lemma mesh_x_at xs ys i j : at_ (mesh_x xs ys) i j = if Nat.ltb i (length ys) then nth_error xs j else None.
Proof.
  unfold at_, mesh_x. rewrite nth_error_map. destruct (Nat.ltb_spec i (length ys)) as [H|H].
  - destruct (nth_error ys i) eqn:E; [reflexivity|]. apply nth_error_None in E. lia.
  - rewrite (proj2 (nth_error_None ys i) H). reflexivity.
Qed.
Lemma mesh_y_at xs ys i j : at_ (mesh_y xs ys) i j = if Nat.ltb j (length xs) then nth_error ys i else None.
Proof.
  unfold at_, mesh_y. rewrite nth_error_map. destruct (nth_error ys i) as [y|]; cbn [option_map].
  - rewrite nth_error_map. destruct (Nat.ltb_spec j (length xs)) as [H|H].
    + destruct (nth_error xs j) eqn:E; [reflexivity|]. apply nth_error_None in E. lia.
    + rewrite (proj2 (nth_error_None xs j) H). reflexivity.
  - destruct (Nat.ltb j (length xs)); reflexivity.
Qed.
Lemma mesh_x_rect xs ys : rectangular (length ys) (length xs) (mesh_x xs ys).
Proof. split; [apply map_length|]. apply Forall_forall. intros r Hr. apply in_map_iff in Hr as [y [<- _]]. reflexivity. Qed.
Lemma mesh_y_rect xs ys : rectangular (length ys) (length xs) (mesh_y xs ys).
Proof. split; [apply map_length|]. apply Forall_forall. intros r Hr. apply in_map_iff in Hr as [y [<- _]]. apply map_length. Qed.
Lemma mesh_point xs ys i j p : grid_point (mesh_x xs ys) (mesh_y xs ys) i j p <-> nth_error xs j = Some (fst p) /\ nth_error ys i = Some (snd p).
Proof.
  unfold grid_point. rewrite mesh_x_at, mesh_y_at. split; intros [H1 H2].
  - destruct (Nat.ltb i _); [|discriminate]. destruct (Nat.ltb j _); [|discriminate]. auto.
  - rewrite (proj2 (Nat.ltb_lt i (length ys))), (proj2 (Nat.ltb_lt j (length xs))); [auto| |]; apply nth_error_Some; congruence.
Qed.
(** A set of positions with no gap is an interval. *)
Lemma convex_interval (P : nat -> bool) n : (forall i j k, (i < j < k)%nat -> (k < n)%nat -> P i = true -> P k = true -> P j = true) ->
  exists a w, (a + w <= n)%nat /\ forall i, (i < n)%nat -> (P i = true <-> (a <= i < a + w)%nat).
Proof.
  induction n as [|n IH]; intro H.
  - exists 0%nat, 0%nat. split; [lia|]. intros. lia.
  - destruct IH as [a [w [Hle HP]]]; [intros i j k H1 H2; apply H; lia|].
    destruct (P n) eqn:Pn.
    + destruct (Nat.eq_dec w 0) as [->|Hw].
      * exists n, 1%nat. split; [lia|]. intros i Hi. destruct (Nat.eq_dec i n) as [->|Hn]; [rewrite Pn; split; auto; lia|].
        rewrite (HP i) by lia. lia.
      * assert (a + w = n)%nat.
        { destruct (Nat.eq_dec (a + w) n) as [E|E]; [exact E|]. exfalso.
          assert (P (a + w)%nat = true) as HH. { apply (H a (a + w)%nat n); [lia|lia| |exact Pn]. apply HP; lia. }
          apply HP in HH; lia. }
        exists a, (S w). split; [lia|]. intros i Hi. destruct (Nat.eq_dec i n) as [->|Hn]; [rewrite Pn; split; auto; lia|]. rewrite (HP i) by lia. lia.
    + exists a, w. split; [lia|]. intros i Hi. destruct (Nat.eq_dec i n) as [->|Hn]; [rewrite Pn; split; [discriminate|lia]|]. apply HP. lia.
Qed.
Lemma near_convex p u v t : (u <= v)%Q -> (v <= t)%Q -> near u p -> near t p -> near v p.
Proof.
  unfold near. intros H1 H2 H3 H4. set (r := (3 + (5 # 100) * Qabs p)%Q) in *. apply Qabs_Qle_condition in H3, H4. apply Qabs_Qle_condition. lra.
Qed.
Lemma monotone_interval l p : monotone l -> exists a w, (a + w <= length l)%nat /\ forall i x, nth_error l i = Some x -> (near x p <-> (a <= i < a + w)%nat).
Proof.
  intro HM. destruct (convex_interval (fun i => match nth_error l i with Some x => near_value x p | None => false end) (length l)) as [a [w [Ha Hw]]].
  - intros i j k Hij Hk H1 H2. destruct (nth_error l i) as [xi|] eqn:Ei; [|discriminate]. destruct (nth_error l k) as [xk|] eqn:Ek; [|discriminate].
    destruct (nth_error l j) as [xj|] eqn:Ej; [|apply nth_error_None in Ej; lia]. apply near_value_iff in H1, H2. apply near_value_iff.
    destruct HM as [HM|HM]; pose proof (HM i j xi xj ltac:(lia) Ei Ej); pose proof (HM j k xj xk ltac:(lia) Ej Ek).
    + apply near_convex with xi xk; auto; lra.
    + apply near_convex with xk xi; auto; lra.
  - exists a, w. split; [exact Ha|]. intros i x E. assert (i < length l)%nat by (apply nth_error_Some; congruence).
    rewrite <- (Hw i H), E. symmetry. apply near_value_iff.
Qed.
Lemma mesh_block xs ys px py : monotone xs -> monotone ys -> block_preselection (length ys) (length xs) (mesh_x xs ys) (mesh_y xs ys) px py.
Proof.
  intros Hx Hy. destruct (monotone_interval xs px Hx) as [a [w [Ha HA]]]. destruct (monotone_interval ys py Hy) as [b [h [Hb HB]]].
  exists a, w, b, h. split; [exact Ha|]. split; [exact Hb|]. intros i j p Hp. apply mesh_point in Hp as [E1 E2].
  rewrite (HA j _ E1), (HB i _ E2). tauto.
Qed.

(** *** a nearest-neighbour search exists *)
Fixpoint nearest_from (l : list (Q * Q)) (v : Q * Q) (i bi : nat) (bd : Q) : nat :=
  match l with [] => bi | p :: t => if Qle_bool bd (dist2 p v) then nearest_from t v (S i) bi bd else nearest_from t v (S i) i (dist2 p v) end.
Definition brute_tree (pts vs : list (Q * Q)) : list nat :=
  match pts with [] => [] | p :: t => map (fun v => nearest_from t v 1 0 (dist2 p v)) vs end.
Lemma nearest_from_spec l v : forall i bi b pre, length pre = i -> nth_error pre bi = Some b ->
  (forall p, In p pre -> (dist2 b v <= dist2 p v)%Q) ->
  exists p, nth_error (pre ++ l) (nearest_from l v i bi (dist2 b v)) = Some p /\ forall p', In p' (pre ++ l) -> (dist2 p v <= dist2 p' v)%Q.
Proof.
  induction l as [|x l IH]; intros i bi b pre HL HB H; cbn [nearest_from].
  - rewrite app_nil_r. exists b. auto.
  - replace (pre ++ x :: l)%list with ((pre ++ [x]) ++ l)%list by (rewrite <- app_assoc; reflexivity).
    assert (Hbi : (bi < length pre)%nat) by (apply nth_error_Some; rewrite HB; discriminate).
    destruct (Qle_bool (dist2 b v) (dist2 x v)) eqn:E.
    + apply Qle_bool_iff in E. apply IH; [rewrite app_length; cbn; lia|rewrite nth_error_app1 by exact Hbi; exact HB|].
      intros p Hp. apply in_app_iff in Hp as [Hp|[<-|[]]]; auto.
    + assert (dist2 x v < dist2 b v)%Q by (apply Qnot_le_lt; intro HH; apply Qle_bool_iff in HH; congruence).
      apply IH; [rewrite app_length; cbn; lia|rewrite nth_error_app2, HL, Nat.sub_diag by lia; reflexivity|].
      intros p Hp. apply in_app_iff in Hp as [Hp|[<-|[]]]; [|apply Qle_refl]. specialize (H p Hp). lra.
Qed.
Lemma brute_tree_nearest : nearest_search brute_tree.
Proof.
  intros [|p t] vs Hne; [congruence|]. unfold brute_tree. induction vs as [|v vs IH]; [constructor|]. cbn [map]. constructor; [|exact IH].
  destruct (nearest_from_spec t v 1 0 p [p] eq_refl eq_refl) as [q [H1 H2]]; [intros q [<-|[]]; apply Qle_refl|]. exists q. auto.
Qed.

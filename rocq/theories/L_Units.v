(** Lemmas about a change of unit. *)
From Coq Require Import Lia Lqa FunctionalExtensionality.
From Verif Require Import M_Base M_Tables M_Area M_Eddy M_Detect M_Cntr M_Extract M_Window M_Pipeline S_Tracking S_Levels S_Detect S_Pipeline S_Units L_Base L_Detect L_Detect2 L_Detect3 L_Window2 L_Pipeline L_Columns P_Cntr P_Pipeline.
Open Scope Z_scope.

(** *** the detection at one level, for two settings that judge the contours alike *)
Section Two.
Variable h : cols -> cols.
Definition hfate (f : fate) : fate := match f with Kept e => Kept (map h e) | _ => f end.
Lemma contour_rows_h k e : contour_rows k (map h e) = map (hrow h) (contour_rows k e).
Proof. unfold contour_rows. rewrite map_length, combine_map_r, !map_map. reflexivity. Qed.
Lemma table_h E : table (map (map h) E) = map (hrow h) (table E).
Proof.
  unfold table. rewrite map_length, combine_map_r.
  assert (G : forall l : list (nat * list cols), flat_map (fun ke : nat * list cols => contour_rows (Z.of_nat (fst ke)) (snd ke)) (map (fun p => (fst p, map h (snd p))) l) = map (hrow h) (flat_map (fun ke : nat * list cols => contour_rows (Z.of_nat (fst ke)) (snd ke)) l)).
  { induction l as [|[n e] l IH]; cbn [map flat_map fst snd]; [reflexivity|]. rewrite map_app, <- IH, contour_rows_h. reflexivity. }
  apply G.
Qed.
Lemma level_table_h E : level_table (map (map h) E) = hframe h (level_table E).
Proof. unfold level_table, hframe. cbn [rows ids]. rewrite table_h, map_length. reflexivity. Qed.
Lemma kept_h fs : kept (map hfate fs) = map (map h) (kept fs).
Proof. unfold kept. induction fs as [|[|e|r] fs IH]; cbn [map flat_map hfate app]; [reflexivity|exact IH|f_equal; exact IH|exact IH]. Qed.
Lemma run_h s l s' l' cs : proper (mkCall s l cs) -> proper (mkCall s' l' cs) ->
  (forall c f, In c cs -> is_judged s l c f -> is_judged s' l' c (hfate f)) -> (forall c e, In c cs -> does_raise s c e -> does_raise s' c e) ->
  same_result (fst (run (mkCall s' l' cs) initial_state)) (match fst (run (mkCall s l cs) initial_state) with Ok (R, D) => Ok (hframe h R, D) | Err e => Err e end).
Proof.
  intros P P' J E. assert (H := run_clean [] initial_state _ (Forall_nil _) eq_refl P). assert (H' := run_clean [] initial_state _ (Forall_nil _) eq_refl P').
  assert (JS : forall pre fs, (forall c, In c pre -> In c cs) -> Forall2 (is_judged s l) pre fs -> Forall2 (is_judged s' l') pre (map hfate fs)).
  { intros pre fs I F. induction F as [|c f pre fs F1 F IH]; cbn [map]; constructor; [apply J; [apply I; left; reflexivity|exact F1]|apply IH; intros; apply I; right; assumption]. }
  destruct (run (mkCall s l cs) initial_state) as [[[R D]|x] st], (run (mkCall s' l' cs) initial_state) as [[[R' D']|x'] st']; cbn [fst same_result].
  - destruct H as (F & fs & _ & H1 & -> & _), H' as (F' & fs' & _ & H1' & -> & _). unfold fates in *. cbn [c_setting c_level c_contours] in *.
    assert (fs' = map hfate fs) as ->; [|rewrite kept_h; apply level_table_h]. apply (fates_unique (mkCall s' l' cs)); [exact H1'|]. apply JS; [auto|exact H1].
  - destruct H as (F & fs & _ & H1 & _). destruct H' as (pre & c & post & fs' & Ec & H2 & H3). cbn [c_setting c_level c_contours] in *.
    apply (JS cs fs) in H1; [|auto]. rewrite Ec in H1. apply Forall2_app_inv_l in H1. destruct H1 as (f1 & f2 & _ & H1 & _). inversion H1; subst. eapply judged_not_raises; [eassumption|exact H3].
  - destruct H' as (F' & fs' & _ & H1' & _). destruct H as (pre & c & post & fs & Ec & H2 & H3). unfold fates in *. cbn [c_setting c_level c_contours] in *.
    assert (In c cs) by (rewrite Ec; apply in_or_app; right; left; reflexivity). apply E in H3; [|assumption].
    rewrite Ec in H1'. apply Forall2_app_inv_l in H1'. destruct H1' as (f1 & f2 & _ & H1 & _). inversion H1; subst. eapply judged_not_raises; [eassumption|exact H3].
  - destruct H as (pre & c & post & fs & Ec & H2 & H3), H' as (pre' & c' & post' & fs' & Ec' & H2' & H3'). cbn [c_setting c_level c_contours] in *.
    assert (Ic : In c cs) by (rewrite Ec; apply in_or_app; right; left; reflexivity). apply E in H3; [|exact Ic].
    apply (JS pre fs) in H2; [|intros; rewrite Ec; apply in_or_app; left; assumption].
    assert (K : forall p q c c' r r' (F F' : list fate), p ++ c :: r = q ++ c' :: r' -> Forall2 (is_judged s' l') p F -> Forall2 (is_judged s' l') q F' -> does_raise s' c x -> does_raise s' c' x' -> x' = x).
    { clear. intros p. induction p as [|a p IH]; intros q c c' r r' F F' Eq A B C D; destruct q as [|b q]; cbn in Eq; injection Eq as E1 E2; subst.
      - exact (raises_unique _ _ _ _ D C).
      - inversion B; subst. exfalso. eapply judged_not_raises; eassumption.
      - inversion A; subst. exfalso. eapply judged_not_raises; eassumption.
      - inversion A; subst. inversion B; subst. eapply IH; eassumption. }
    rewrite Ec in Ec'. eapply K; eassumption.
Qed.
End Two.

(** *** changes of values that keep the order *)
Lemma Qle_bool_ext a b c d : (a <= b <-> c <= d)%Q -> Qle_bool a b = Qle_bool c d.
Proof. intro H. destruct (Qle_bool a b) eqn:E, (Qle_bool c d) eqn:E'; try reflexivity; exfalso; rewrite <- Bool.not_true_iff_false in *; rewrite Qle_bool_iff in *; tauto. Qed.
Lemma Qeq_bool_ext a b c d : (a == b <-> c == d)%Q -> Qeq_bool a b = Qeq_bool c d.
Proof. intro H. destruct (Qeq_bool a b) eqn:E, (Qeq_bool c d) eqn:E'; try reflexivity; exfalso; rewrite <- Bool.not_true_iff_false in *; rewrite Qeq_bool_iff in *; tauto. Qed.
Definition lift (g : Q -> Q) (x : num) : num := match x with Num q => Num (g q) | NaN => NaN end.
Section Change.
Variable g : Q -> Q.
Hypothesis Hg : forall a b, (g a <= g b <-> a <= b)%Q.
Notation u := (lift g).
Lemma lift_gt a b : ngt (u a) (u b) = ngt a b.
Proof. destruct a, b; try reflexivity. unfold ngt, nlt, lift. f_equal. apply Qle_bool_ext, Hg. Qed.

(** contour lines *)
Section Lines.
Variable o : tracker.
Hypothesis HF : exact_for u (t_flops o).
Lemma lines_u d mem x y z level : 0 <= m_rows num z -> 0 <= m_cols num z -> lines (on_data o d mem) x y (surface_with u z) (u level) = lines o x y z level.
Proof.
  intros R C. unfold lines. cbn [on_data t_flops t_garbage].
  assert (Rd : rounds (surface_with u z) = rounds z) by reflexivity. rewrite Rd.
  rewrite (C78_result_does_not_depend_on_uninitialised_memory _ _ _ _ _ _ _ _ _ _ (t_garbage o z level) x y (surface_with u z) (u level)) by assumption.
  unfold extract_contours, trace.
  assert (Ei : cntr_init num x y (surface_with u z) = cntr_init num x y z) by reflexivity. rewrite Ei.
  assert (Ea : above_of num ngt (surface_with u z) (u level) = above_of num ngt z level).
  { apply functional_extensionality. intro i. unfold above_of. cbn [m_at surface_with]. apply lift_gt. }
  assert (Ec : centre_of num (f_add (t_flops o)) (f_div (t_flops o)) (f_cst (t_flops o) 4) ngt (surface_with u z) (u level) = centre_of num (f_add (t_flops o)) (f_div (t_flops o)) (f_cst (t_flops o) 4) ngt z level).
  { do 4 (apply functional_extensionality; intro). unfold centre_of. cbn [m_at surface_with]. rewrite (ef_mean _ _ HF). apply lift_gt. }
  assert (Ev : vertex num (f_add (t_flops o)) (f_sub (t_flops o)) (f_mul (t_flops o)) (f_div (t_flops o)) x y (surface_with u z) (u level) = vertex num (f_add (t_flops o)) (f_sub (t_flops o)) (f_mul (t_flops o)) (f_div (t_flops o)) x y z level).
  { apply functional_extensionality. intros [p q]. unfold vertex. cbn [m_at surface_with]. rewrite (ef_part _ _ HF). reflexivity. }
  rewrite Ea, Ec, Ev. reflexivity.
Qed.
Lemma concat_u f : List.concat (field_with u f) = map u (List.concat f).
Proof. unfold field_with. symmetry. apply concat_map. Qed.
Lemma width_u f : width_of (field_with u f) = width_of f.
Proof. destruct f as [|r f]; cbn; [reflexivity|]. apply map_length. Qed.
Lemma array_u f : array_of (field_with u f) = surface_with u (array_of f).
Proof.
  unfold array_of, surface_with. cbn [m_rows m_cols m_at]. rewrite width_u, concat_u. unfold field_with at 1. rewrite map_length. f_equal. apply functional_extensionality. intro i.
  change NaN with (u NaN) at 1. apply map_nth.
Qed.
Lemma contours_u d mem f level : contours_at (on_data o d mem) (Some (field_with u f)) (u level) = contours_at o (Some f) level.
Proof.
  unfold contours_at. rewrite width_u. unfold field_with at 1. rewrite map_length. destruct (_ || _)%bool; [reflexivity|]. cbn [on_data t_X t_Y]. rewrite array_u. apply lines_u; cbn; lia.
Qed.
End Lines.

(** *** data inside a contour *)
Lemma slice_map {A B} (w : A -> B) lo hi l : slice lo hi (map w l) = map w (slice lo hi l).
Proof. unfold slice. rewrite skipn_map, firstn_map. reflexivity. Qed.
Lemma slice2_u y0 y1 x0 x1 f : slice2 y0 y1 x0 x1 (field_with u f) = field_with u (slice2 y0 y1 x0 x1 f).
Proof. unfold slice2, field_with. rewrite slice_map, !map_map. apply map_ext. intro. apply slice_map. Qed.
Lemma at_u f i j : at_ (field_with u f) i j = option_map u (at_ f i j).
Proof. unfold at_, field_with. rewrite nth_error_map. destruct (nth_error f i); [|reflexivity]. cbn. apply nth_error_map. Qed.
Lemma valid_u l : valid (map u l) = map g (valid l).
Proof. induction l as [|[|q] l IH]; cbn; [reflexivity|exact IH|]. f_equal. exact IH. Qed.

(** Two lists whose values are s q and s (g q) *)
Definition rel (s : Q) (a a' : num) : Prop := match a, a' with NaN, NaN => True | Num x, Num x' => exists q, x = (s * q)%Q /\ x' = (s * g q)%Q | _, _ => False end.
Definition rel_best (s : Q) (b b' : option (Q * nat)) : Prop := match b, b' with None, None => True | Some (x, i), Some (x', i') => (exists q, x = (s * q)%Q /\ x' = (s * g q)%Q) /\ i' = i | _, _ => False end.
Lemma sign_order s p q : (s = 0 \/ s = 1 \/ s = -1)%Q -> Qle_bool (s * g p) (s * g q) = Qle_bool (s * p) (s * q).
Proof.
  intro Hs. apply Qle_bool_ext. pose proof (Hg p q) as H. pose proof (Hg q p) as H0. destruct Hs as [->|[->| ->]].
  - split; intro; lra.
  - split; intro W; [assert (p <= q)%Q by (apply H; lra)|assert (g p <= g q)%Q by (apply H; lra)]; lra.
  - split; intro W; [assert (q <= p)%Q by (apply H0; lra)|assert (g q <= g p)%Q by (apply H0; lra)]; lra.
Qed.
Lemma argmax_rel s l l' : (s = 0 \/ s = 1 \/ s = -1)%Q -> Forall2 (rel s) l l' -> forall i b b', rel_best s b b' -> rel_best s (nan_argmax l i b) (nan_argmax l' i b').
Proof.
  intro Hs. induction 1 as [|a a' l l' R F IH]; intros i b b' B; cbn [nan_argmax]; [exact B|]. destruct a as [|x], a' as [|x']; cbn in R; try contradiction; apply IH; [exact B|].
  destruct b as [[m j]|], b' as [[m' j']|]; cbn in B; try contradiction; [|split; [exact R|reflexivity]]. destruct B as [B ->].
  assert (E : Qle_bool x' m' = Qle_bool x m) by (destruct R as (p & -> & ->), B as (q & -> & ->); apply sign_order, Hs). rewrite E. destruct (Qle_bool x m); split; auto.
Qed.
Lemma rel_mul s l : Forall2 (rel s) (map (nmul (Num s)) l) (map (nmul (Num s)) (map u l)).
Proof. induction l as [|x l IH]; cbn [map]; constructor; [|exact IH]. destruct x as [|q]; [exact I|]. exists q. split; reflexivity. Qed.
Lemma sign_cases x : nsign x = NaN \/ exists s, nsign x = Num s /\ (s = 0 \/ s = 1 \/ s = -1)%Q.
Proof. destruct x as [|q]; cbn; [auto|]. destruct (Qle_bool q 0); [destruct (Qle_bool 0 q)|]; right; eexists; split; try reflexivity; auto. Qed.
Lemma mul1 q : (1 * q)%Q = q. Proof. destruct q as [a b]. unfold Qmult. cbn [Qnum Qden]. f_equal. apply Z.mul_1_l. Qed.
Lemma mm1 q : (-1 * (-1 * q))%Q = q.
Proof. destruct q as [a b]. unfold Qmult. cbn [Qnum Qden]. f_equal. lia. Qed.
Lemma argmax_NaN l : forall i, (forall x, In x l -> x = NaN) -> nan_argmax l i None = None.
Proof. induction l as [|x l IH]; intros i H; [reflexivity|]. rewrite (H x (or_introl eq_refl)). cbn [nan_argmax]. apply IH. intros. apply H. right. assumption. Qed.

(** The sign of the mean, and which values are zero, are kept *)
Definition keeps_sign (l : list num) : Prop := nsign (nnanmean (map u l)) = nsign (nnanmean l) /\ forall x, In x l -> neqb (u x) (Num 0) = neqb x (Num 0).
Definition data_alike (tree : list (Q * Q) -> list (Q * Q) -> list nat) (X Y : grid Q) (f : grid num) (c : contour) : Prop :=
  match data_in_contour tree X Y f c, data_in_contour tree X Y (field_with u f) c with
  | Ok (s, (v, y, x)), Ok (s', (v', y', x')) => s' = s /\ y' = y /\ x' = x /\ neqb v' (Num 0) = neqb v (Num 0) /\ (neqb v (Num 0) = false -> v' = u v)
  | Err e, Err e' => e' = e
  | _, _ => False
  end.
Lemma mask_u cells data : (forall l, (forall x, In x l -> x = NaN \/ exists r, In r data /\ In x r) -> keeps_sign l) ->
  match mask_data cells data, mask_data cells (field_with u data) with
  | Ok (m, s, (v, y, x)), Ok (m', s', (v', y', x')) => m' = m /\ s' = s /\ y' = y /\ x' = x /\ neqb v' (Num 0) = neqb v (Num 0) /\ (neqb v (Num 0) = false -> v' = u v)
  | Err e, Err e' => e' = e
  | _, _ => False
  end.
Proof.
  intro K. unfold mask_data. replace (match field_with u data with r :: _ => length r | [] => O end) with (width_of data) by (symmetry; apply (width_u data)).
  replace (match data with r :: _ => length r | [] => O end) with (width_of data) by reflexivity. replace (length (field_with u data)) with (length data) by (symmetry; apply map_length). cbv zeta.
  destruct (sequence _) as [cs|]; [|reflexivity]. destruct (fill_holes _ _ _) as [inside|]; cbn [bind]; [|reflexivity].
  set (flat := List.concat (tabulate (length data) (width_of data) (fun i j => match at_ inside i j, at_ data i j with Some true, Some x => x | _, _ => NaN end))).
  assert (Ef : List.concat (tabulate (length data) (width_of data) (fun i j => match at_ inside i j, at_ (field_with u data) i j with Some true, Some x => x | _, _ => NaN end)) = map u flat).
  { unfold flat. rewrite <- concat_u. f_equal. unfold tabulate. unfold field_with at 2. rewrite map_map. apply map_ext. intro i. rewrite map_map. apply map_ext. intro j. rewrite at_u. destruct (at_ inside i j) as [[|]|], (at_ data i j); reflexivity. }
  assert (Kf : keeps_sign flat).
  { apply K. intros x Hx. unfold flat in Hx. apply in_concat in Hx. destruct Hx as (r & Hr & Hx). unfold tabulate in Hr. apply in_map_iff in Hr. destruct Hr as (i & <- & _). apply in_map_iff in Hx. destruct Hx as (j & <- & _).
    destruct (at_ inside i j) as [[|]|]; auto. unfold at_. destruct (nth_error data i) as [r|] eqn:Er; auto. destruct (nth_error r j) as [x|] eqn:Ex; auto. right. exists r. split; [exact (nth_error_In _ _ Er)|exact (nth_error_In _ _ Ex)]. }
  destruct Kf as [Ks Kz]. rewrite Ef, Ks. clear Ef Ks K. set (s := nsign (nnanmean flat)).
  destruct (sign_cases (nnanmean flat)) as [E|(s0 & E & Hs)]; fold s in E; rewrite E.
  { rewrite !argmax_NaN; [reflexivity| |]; intros x Hx; apply in_map_iff in Hx; destruct Hx as (y & <- & _); reflexivity. }
  pose proof (argmax_rel s0 _ _ Hs (rel_mul s0 flat) 0%nat None None I) as A. pose proof (nan_argmax_0 (map (nmul (Num s0)) flat)) as N. pose proof (nan_argmax_0 (map (nmul (Num s0)) (map u flat))) as N'.
  destruct (nan_argmax (map (nmul (Num s0)) flat) 0 None) as [[m i]|], (nan_argmax (map (nmul (Num s0)) (map u flat)) 0 None) as [[m' i']|]; cbn in A; try contradiction; [|reflexivity].
  destruct A as [_ ->]. destruct N as [N _], N' as [N' _]. rewrite nth_error_map in N. rewrite !nth_error_map in N'. destruct (nth_error flat i) as [x|] eqn:Ex; [|discriminate]. cbn [option_map] in N, N'.
  assert (N1 : nmul (Num s0) x = Num m) by congruence. assert (N2 : nmul (Num s0) (u x) = Num m') by congruence. clear N N'. do 4 (split; [reflexivity|]).
  apply nth_error_In in Ex. specialize (Kz x Ex). destruct x as [|q]; [discriminate|]. unfold nmul, lift in N1, N2. unfold nmul.
  assert (m = (s0 * q)%Q) as -> by congruence. assert (m' = (s0 * g q)%Q) as -> by congruence. destruct Hs as [->|[->| ->]].
  - split; [unfold neqb; apply Qeq_bool_ext; split; intro; ring|]. intro H. exfalso. unfold neqb in H. apply Qeq_bool_neq in H. apply H. ring.
  - rewrite !mul1. split; [exact Kz|]. intros _. reflexivity.
  - rewrite !mm1. split; [exact Kz|]. intros _. reflexivity.
Qed.
Lemma In_slice {A} lo hi (l : list A) x : In x (slice lo hi l) -> In x l.
Proof. unfold slice. intro H. rewrite <- (firstn_skipn (Z.to_nat lo) l). apply in_or_app. right. rewrite <- (firstn_skipn (Z.to_nat (hi - lo)) (skipn (Z.to_nat lo) l)). apply in_or_app. left. exact H. Qed.
Lemma data_u tree X Y f c : (forall l, (forall x, In x l -> x = NaN \/ exists r, In r f /\ In x r) -> keeps_sign l) -> data_alike tree X Y f c.
Proof.
  intro K. unfold data_alike, data_in_contour. destruct (grid_cells tree X Y c) as [cells|]; cbn [bind]; [|reflexivity]. destruct (window _ Auto cells) as [[[bl tr] rl]|]; cbn [bind]; [|reflexivity].
  rewrite slice2_u.
  assert (K' : forall l, (forall x, In x l -> x = NaN \/ exists r, In r (slice2 (fst bl) (fst tr) (snd bl) (snd tr) f) /\ In x r) -> keeps_sign l).
  { intros l H. apply K. intros x Hx. destruct (H x Hx) as [->|(r & Hr & Hxr)]; [auto|]. right. unfold slice2 in Hr. apply in_map_iff in Hr. destruct Hr as (r0 & <- & Hr). exists r0. split; [exact (In_slice _ _ _ _ Hr)|exact (In_slice _ _ _ _ Hxr)]. }
  pose proof (mask_u rl _ K') as M.
  destruct (mask_data rl (slice2 (fst bl) (fst tr) (snd bl) (snd tr) f)) as [[[m s] [[v y] x]]|], (mask_data rl (field_with u (slice2 (fst bl) (fst tr) (snd bl) (snd tr) f))) as [[[m' s'] [[v' y'] x']]|];
    try contradiction; cbn [bind]; [|exact M]. destruct M as (_ & -> & -> & -> & A & B).
  destruct (at_ _ y x) as [p|]; [|reflexivity]. destruct (at_ _ y x) as [q|]; [|reflexivity]. auto.
Qed.

(** *** the detection at one level *)
Section Object.
Variable o : tracker.
Hypothesis HF : exact_for u (t_flops o).
Hypothesis Hfit : fit_for u o.
Notation o' := (tracker_with u o).
Notation h := (columns_with u).
Lemma gauss_u f level c : t_skip_gaussian_fit o = false -> fitted o' (field_with u f) (u level) c = fitted o f level c.
Proof.
  intro S. destruct Hfit as [E|[Ha E]]; [congruence|]. unfold fitted, tracker_with. cbn [on_data t_surface]. rewrite E. destruct (t_surface o f level c) as [[gp [[x y] z]]|] eqn:Es; [|reflexivity].
  cbn [bind fst snd]. destruct (Ha _ _ _ _ _ _ _ Es). rewrite lines_u by assumption. reflexivity.
Qed.
Section Field.
Variable f : grid num.
Hypothesis Hd : forall c, data_alike (t_tree o) (t_X o) (t_Y o) f c.
Lemma checks_u level c :
  let s := settings o f level in let s' := settings o' (field_with u f) (u level) in
  checks (enclosed_area (s_flops s')) (disc_radius (s_flops s')) (s_rossby s') (s_fit_ellipse s') (s_eccentricity s') (s_similarity s') (s_data s') (s_gauss_fit s') (s_crit s') (s_skip s') c =
  checks (enclosed_area (s_flops s)) (disc_radius (s_flops s)) (s_rossby s) (s_fit_ellipse s) (s_eccentricity s) (s_similarity s) (s_data s) (s_gauss_fit s) (s_crit s) (s_skip s) c.
Proof.
  cbv zeta. unfold checks, settings. cbn [s_flops s_rossby s_fit_ellipse s_eccentricity s_similarity s_data s_gauss_fit s_crit s_skip tracker_with on_data t_flops t_rossby t_fit_ellipse t_eccentricity t_similarity t_tree t_X t_Y t_criteria t_skip_gaussian_fit].
  f_equal.
  - do 4 f_equal. f_equal. f_equal. unfold island_check. pose proof (Hd c) as D. unfold data_alike in D.
    destruct (data_in_contour (t_tree o) (t_X o) (t_Y o) f c) as [[s [[v y] x]]|], (data_in_contour (t_tree o) (t_X o) (t_Y o) (field_with u f) c) as [[s' [[v' y'] x']]|]; try contradiction; cbn [bind fst snd]; [|congruence].
    destruct D as (_ & _ & _ & D & _). rewrite D. reflexivity.
  - destruct (t_skip_gaussian_fit o) eqn:S; [reflexivity|]. unfold gauss_found_check, gauss_check. rewrite gauss_u by exact S. reflexivity.
Qed.
Lemma judged_u level c ft : is_judged (settings o f level) level c ft -> is_judged (settings o' (field_with u f) (u level)) (u level) c (hfate h ft).
Proof.
  pose proof (checks_u level c) as C. cbv zeta in C. destruct ft as [|e|r]; cbn [hfate]; unfold is_judged, judged.
  - auto.
  - intros [[A1 A2] R]. unfold accepted. rewrite C. split; [split; assumption|].
    destruct R as (el & a & b & th & err & sgn & v & y & x & gp & gerr & R1 & R2 & R3 & R4 & R5).
    assert (I : island_check (s_data (settings o f level)) c = Ok true).
    { apply (A2 ("eddy_is_island"%string, _)). unfold checks. apply in_or_app. left. do 4 right. left. reflexivity. }
    unfold island_check in I. rewrite R3 in I. cbn [bind fst snd] in I. assert (N : neqb v (Num 0) = false) by (destruct (neqb v (Num 0)); [discriminate|reflexivity]).
    pose proof (Hd c) as D. unfold data_alike in D. cbn [settings s_data] in R3. rewrite R3 in D.
    destruct (data_in_contour (t_tree o) (t_X o) (t_Y o) (field_with u f) c) as [[s' [[v' y'] x']]|] eqn:Ed; [|contradiction]. destruct D as (-> & -> & -> & _ & D). specialize (D N). subst v'.
    exists el, a, b, th, err, sgn, (u v), y, x, gp, gerr. split; [exact R1|]. split; [exact R2|]. split; [exact Ed|]. split.
    + cbn [settings s_skip s_gauss_fit s_similarity tracker_with on_data t_skip_gaussian_fit t_similarity] in *. destruct (t_skip_gaussian_fit o) eqn:S; [exact R4|]. destruct R4 as (gc & R4 & R4'). exists gc. split; [|exact R4'].
      rewrite gauss_u by exact S. exact R4.
    + rewrite R5, map_map. apply map_ext. intro p. reflexivity.
  - unfold rejected. rewrite C. auto.
Qed.
Lemma raise_u level c e : does_raise (settings o f level) c e -> does_raise (settings o' (field_with u f) (u level)) c e.
Proof. pose proof (checks_u level c) as C. cbv zeta in C. unfold does_raise, raises. rewrite C. auto. Qed.
End Field.

Hypothesis H5 : five_fitted o.
Lemma five_u : five_fitted o'. Proof. exact H5. Qed.
Definition alike (d : option (grid num)) : Prop := forall f, d = Some f -> forall c, data_alike (t_tree o) (t_X o) (t_Y o) f c.
Lemma level_u d level : alike d ->
  same_result (fst (detect_level o' (option_map (field_with u) d) (u level) initial_state))
              (match fst (detect_level o d level initial_state) with Ok (R, D) => Ok (hframe h R, D) | Err e => Err e end).
Proof.
  intro Hd. destruct d as [f|]; [|reflexivity]. cbn [option_map]. specialize (Hd f eq_refl).
  destruct (contours_at o (Some f) level) as [cs|e] eqn:E.
  - assert (E' : contours_at o' (Some (field_with u f)) (u level) = Ok cs) by (unfold tracker_with; rewrite contours_u by assumption; exact E).
    destruct (detect_level_run o H5 f level cs initial_state E) as [-> P]. destruct (detect_level_run o' five_u (field_with u f) (u level) cs initial_state E') as [-> P'].
    apply run_h; [exact P|exact P'|intros; apply judged_u; assumption|intros; apply raise_u; assumption].
  - assert (E' : contours_at o' (Some (field_with u f)) (u level) = Err e) by (unfold tracker_with; rewrite contours_u by assumption; exact E).
    unfold detect_level. rewrite E, E'. reflexivity.
Qed.
Lemma snapshot_loop_u d ls : alike d -> forall joint st st', settled st -> settled st' ->
  fst (snapshot_loop (t_query o) (t_keep o) (detect_level o' (option_map (field_with u) d)) (hframe h joint) (map u ls) st') =
  rmap (hframe h) (fst (snapshot_loop (t_query o) (t_keep o) (detect_level o d) joint ls st)).
Proof.
  intro Hd. induction ls as [|l ls IH]; intros joint st st' Hs Hs'; cbn [map snapshot_loop]; [reflexivity|].
  pose proof (level_u d l Hd) as C. pose proof (detect_level_indep o H5 d l st Hs) as I. pose proof (detect_level_indep o' five_u (option_map (field_with u) d) (u l) st' Hs') as I'.
  pose proof (detect_level_spec o H5 d l st Hs) as S. pose proof (detect_level_spec o' five_u (option_map (field_with u) d) (u l) st' Hs') as S'.
  destruct (detect_level o d l initial_state) as [[[R0 D0]|e0] s0], (detect_level o' (option_map (field_with u) d) (u l) initial_state) as [[[R0' D0']|e0'] s0'];
    destruct (detect_level o d l st) as [[[R D]|e] s], (detect_level o' (option_map (field_with u) d) (u l) st') as [[[R' D']|e'] s'];
    cbn [fst same_result rmap] in *; try contradiction; [|congruence].
  subst R0 R0' R'. destruct S as [S _], S' as [S' _]. rewrite !empty_map. destruct (empty R); [apply IH; assumption|]. destruct (empty joint); [apply IH; assumption|].
  rewrite (nearest_map h) with (p := joint); try reflexivity; [|apply xs0_coord; reflexivity].
  destruct (detect_nearest (t_query o) joint R) as [[ix nr]|]; cbn [bind]; [|reflexivity].
  rewrite update_better_map by reflexivity. destruct (update_better_eddy joint R ix nr) as [[j c]|]; cbn [bind rmap fst snd]; [|reflexivity].
  rewrite merge_map. destruct (merge_reindex (t_keep o) j c); cbn [rmap]; [apply IH; assumption|reflexivity].
Qed.
Lemma select_u l t : select (map (field_with u) l) t = rmap (field_with u) (select l t).
Proof. unfold select. rewrite map_length. cbv zeta. generalize (if t <? 0 then t + Z.of_nat (length l) else t) as i. intro i. destruct (i <? 0); [reflexivity|]. rewrite nth_error_map. destruct (nth_error l (Z.to_nat i)); reflexivity. Qed.
Hypothesis Hf : filter_for u o.
Lemma data2track_u t : data2track o' t = rmap (option_map (field_with u)) (data2track o t).
Proof.
  unfold data2track, tracker_with. cbn [on_data t_data t_filter]. destruct (t_data o) as [l|f]; cbn [data_with].
  - rewrite select_u. destruct (select l t) as [f|]; cbn [rmap bind]; [|reflexivity]. rewrite Hf. destruct (t_filter o f); reflexivity.
  - cbn [bind]. rewrite Hf. destruct (t_filter o f); reflexivity.
Qed.
Lemma nonzero_u ls : (forall l, In l ls -> neqb (u l) (Num 0) = neqb l (Num 0)) -> nonzero_levels (map u ls) = map u (nonzero_levels ls).
Proof. intro H. unfold nonzero_levels. induction ls as [|l ls IH]; cbn [map filter]; [reflexivity|]. rewrite (H l (or_introl eq_refl)), IH by (intros; apply H; right; assumption). destruct (neqb l (Num 0)); reflexivity. Qed.
Lemma detect_u ls t : (forall l, In l ls -> neqb (u l) (Num 0) = neqb l (Num 0)) -> (forall d, data2track o t = Ok d -> alike d) ->
  detect_of o' (Some (map u ls)) t = rmap (hframe h) (detect_of o (Some ls) t).
Proof.
  intros Hl Hd. unfold detect_of, snapshot. rewrite data2track_u. destruct (data2track o t) as [d|]; cbn [rmap]; [|reflexivity]. unfold detect_snapshot. rewrite nonzero_u by exact Hl.
  apply (snapshot_loop_u d (nonzero_levels ls) (Hd d eq_refl) empty_frame); apply settled_initial.
Qed.
(** *** whole runs *)
Lemma tracking_u t0 tf levels nt online st : process st -> (forall l, In l levels -> neqb (u l) (Num 0) = neqb l (Num 0)) ->
  (forall t f, In t (run_steps o t0 tf) -> field_at o t f -> forall c, data_alike (t_tree o) (t_X o) (t_Y o) f c) ->
  fst (tracking o' t0 tf (Some (map u levels)) nt online st) = outcome_with u (fst (tracking o t0 tf (Some levels) nt online st)).
Proof.
  intros Hp Hl Hd. apply process_settled in Hp.
  destruct (tracking_stateless o H5 t0 tf (Some levels) nt online st Hp) as [-> _], (tracking_stateless o' five_u t0 tf (Some (map u levels)) nt online st Hp) as [-> _].
  assert (Et : times o' t0 tf = times o t0 tf).
  { unfold times, tracker_with. cbn [on_data t_data]. destruct (t_data o); cbn [data_with]; [rewrite map_length|]; reflexivity. }
  rewrite Et. destruct (times o t0 tf) as [ts|] eqn:Ets; [|reflexivity]. destruct (times_steps _ _ _ _ Ets) as [-> _]. cbn [tracker_with on_data t_query t_keep t_out_format].
  pose proof (loop_map h) as L. specialize (L (fun c => eq_refl) (fun c => eq_refl) (fun c => eq_refl)).
  specialize (L (t_query o) (t_keep o) (detect_of o (Some levels)) (detect_of o' (Some (map u levels))) online (t_out_format o) tf nt (run_steps o t0 tf)).
  apply (fun H => L H empty_frame []). intros t Ht. apply detect_u; [exact Hl|]. intros d E f -> c. apply (Hd t f Ht). apply data2track_field, E.
Qed.
End Object.
End Change.

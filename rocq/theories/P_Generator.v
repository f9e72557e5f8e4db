(** Properties C56-C59, C62, C74 and C75: synthetic fields. *)
From Coq Require Import Reals Lra Lia.
From Verif Require Import M_Base M_Gauss M_Generator S_Generator L_Generator.
Open Scope R_scope.

Lemma plain_opt opt : plain opt -> random_places opt = false /\ kept_apart opt = false.
Proof.
  intro H. unfold random_places, kept_apart. destruct (String.eqb_spec opt "interaction"); [exfalso; apply H; cbn; auto|]. destruct (String.eqb_spec opt "int"); [exfalso; apply H; cbn; auto|].
  destruct (String.eqb_spec opt "no_interaction"); [exfalso; apply H; cbn; auto|]. destruct (String.eqb_spec opt "Nint"); [exfalso; apply H; cbn; auto|]. split; reflexivity.
Qed.
Lemma plain_default : plain "".
Proof. intros [H|[H|[H|[H|[]]]]]; discriminate. Qed.
(** C56: whatever the random numbers, when checkposition returns all eddies are on the grid and any two of them are far enough from each other, or
    (only when b <= a) in the very same place.  Missing: the second case, see [C56_refuted]. *)
Theorem C56_kept_apart_partial draw xlen ylen xs ys a b away fuel loc locs k locs' k' :
  fair draw -> (0 < xlen)%nat -> (0 < ylen)%nat -> on_grid xlen ylen locs ->
  checkposition draw xlen ylen xs ys a b away fuel loc locs k = Ok (locs', k') ->
  length locs' = length locs /\ on_grid xlen ylen locs' /\
  forall i j d, i <> j -> separation xs ys locs' i j d -> far_enough away a b d \/ (d = 0 /\ away * b <= away * a).
Proof.
  intros F X Y G H. unfold checkposition in H. apply check_from_ok in H as [L [P Q]]; [|reflexivity|intros m j Hm; lia]. split; [exact L|]. split; [auto|].
  intros i j d N [p [q [Hp [Hq ->]]]]. assert (Hi : (i < length locs)%nat) by (rewrite <- L; apply nth_error_Some; congruence). assert (Hj : (j < length locs)%nat) by (rewrite <- L; apply nth_error_Some; congruence).
  pose proof (P i j Hi Hj (not_eq_sym N) p q Hp Hq) as O. rewrite dist_distance in O. destruct O as [O|O]; [right; exact O|left; exact O].
Qed.
Print Assumptions C56_kept_apart_partial.
(** C56, for a < b: all eddies are far enough from each other. *)
Theorem C56_apart_when_a_below_b_partial draw xlen ylen xs ys a b away fuel loc locs k locs' k' :
  fair draw -> (0 < xlen)%nat -> (0 < ylen)%nat -> on_grid xlen ylen locs -> 0 < away -> a < b ->
  checkposition draw xlen ylen xs ys a b away fuel loc locs k = Ok (locs', k') ->
  forall i j d, i <> j -> separation xs ys locs' i j d -> away * a <= d /\ away * b <= d.
Proof.
  intros F X Y G W B H i j d N S. destruct (C56_kept_apart_partial _ _ _ _ _ _ _ _ _ _ _ _ _ _ F X Y G H) as [_ [_ P]]. destruct (P i j d N S) as [O|[_ O]]; [exact O|]. nra.
Qed.
Print Assumptions C56_apart_when_a_below_b_partial.
(** C56 is false when b <= a: two eddies drawn in the same place stay there. *)
Theorem C56_refuted draw xs ys a b away k : fair draw -> 0 < away -> b <= a ->
  exists k', checkposition draw 1 1 xs ys a b away 1 true [(0, 0); (0, 0)]%nat k = Ok ([(0, 0); (0, 0)]%nat, k') /\
  separation xs ys [(0, 0); (0, 0)]%nat 0 1 0.
Proof.
  intros F W B. eexists. split.
  - assert (D : forall m, draw m 1%nat = 0%nat) by (intro m; pose proof (F m 1%nat ltac:(lia)); lia).
    assert (C : crowded xs ys a b away [(0, 0); (0, 0)]%nat (0, 0)%nat = false).
    { unfold crowded, distances. cbn [map]. rewrite !dist_self. assert (Z : zero 0 = true) by (apply zero_true; reflexivity). cbn [filter]. rewrite Z. cbn [length Nat.leb map existsb]. rewrite ?Z.
      rewrite !orb_false_r, !orb_false_iff. repeat split; apply below_false; nra. }
    unfold checkposition. cbn [check_from length nth_error]. rewrite orb_true_r. cbn [reposition orb]. rewrite !D. cbn [set_nth]. rewrite C. cbn [orb Z.leb Z.add Z.compare Pos.compare Pos.compare_cont bind fst snd check_from nth_error].
    rewrite orb_true_r. cbn [reposition orb]. rewrite !D. cbn [set_nth]. rewrite C. reflexivity.
  - exists (0, 0)%nat, (0, 0)%nat. split; [reflexivity|]. split; [reflexivity|]. cbn [fst snd]. rewrite !Rminus_eq_0. transitivity (sqrt 0); [symmetry; apply sqrt_0|f_equal; ring].
Qed.
Print Assumptions C56_refuted.
Example C56_meets : exists draw xs ys k', fair draw /\ checkposition draw 3 1 xs ys 1 2 1 5 false [(0, 0); (2, 0)]%nat 0 = Ok ([(0, 0); (2, 0)]%nat, k').
Proof.
  exists (fun k n => if Nat.eqb n 3 then (if Nat.ltb k 2 then 0 else 2)%nat else 0%nat), INR, INR. eexists. split.
  - intros k n H. cbv beta. destruct (Nat.eqb_spec n 3); [|lia]. subst. destruct (Nat.ltb k 2); lia.
  - unfold checkposition. cbn [length Nat.add Nat.mul]. cbv [check_from]. cbn [nth_error].
    assert (D00 : dist (place INR INR (0, 0)%nat) (place INR INR (0, 0)%nat) = 0) by apply dist_self. assert (D22 : dist (place INR INR (2, 0)%nat) (place INR INR (2, 0)%nat) = 0) by apply dist_self.
    assert (D02 : dist (place INR INR (0, 0)%nat) (place INR INR (2, 0)%nat) = 2).
    { unfold dist, place. cbn [fst snd INR]. replace ((0 - (1 + 1)) ^ 2 + (0 - 0) ^ 2) with (2 * 2) by ring. apply sqrt_square. lra. }
    assert (D20 : dist (place INR INR (2, 0)%nat) (place INR INR (0, 0)%nat) = 2) by (rewrite dist_sym; exact D02).
    assert (Z0 : zero 0 = true) by (apply zero_true; reflexivity). assert (Z2 : zero 2 = false) by (apply zero_false; lra).
    assert (C1 : crowded_first INR INR 1 2 1 [(0, 0); (2, 0)]%nat (0, 0)%nat = true).
    { unfold crowded_first, distances. cbn [map]. rewrite D00, D02, Z0, Z2. cbn [existsb]. unfold below. destruct (Rlt_dec (1 * 1) (1 * 2)); [|lra]. cbn [orb]. rewrite orb_true_r. reflexivity. }
    assert (C2 : crowded_first INR INR 1 2 1 [(0, 0); (2, 0)]%nat (2, 0)%nat = true).
    { unfold crowded_first, distances. cbn [map]. rewrite D22, D20, Z0, Z2. cbn [existsb]. unfold below. destruct (Rlt_dec (1 * 1) (1 * 2)); [|lra]. rewrite !orb_true_r. reflexivity. }
    assert (C3 : crowded INR INR 1 2 1 [(0, 0); (2, 0)]%nat (0, 0)%nat = false).
    { unfold crowded, distances. cbn [map]. rewrite D00, D02. cbn [filter]. rewrite Z0, Z2. cbn [negb length Nat.leb existsb]. rewrite !orb_false_r, orb_false_iff. split; apply below_false; lra. }
    assert (C4 : crowded INR INR 1 2 1 [(0, 0); (2, 0)]%nat (2, 0)%nat = false).
    { unfold crowded, distances. cbn [map]. rewrite D22, D20. cbn [filter]. rewrite Z0, Z2. cbn [negb length Nat.leb existsb]. rewrite !orb_false_r, orb_false_iff. split; apply below_false; lra. }
    rewrite C1. cbn [reposition orb Nat.eqb Nat.ltb Nat.leb set_nth]. rewrite C3. cbn [orb Z.leb Z.add Z.compare Pos.compare Pos.compare_cont bind fst snd nth_error].
    rewrite C2. cbn [reposition orb Nat.eqb Nat.ltb Nat.leb set_nth]. rewrite C4. reflexivity.
Qed.

(** C57: when a place has to be found for eddy [i], the loop ends if and only if one of the first 9999 attempts is well placed.  Missing: giving up. *)
Theorem C57_ends_iff_partial draw xlen ylen xs ys a b away locs k i : 0 < away -> 0 < a -> (i < length locs)%nat ->
  (exists fuel r, reposition draw xlen ylen xs ys a b away fuel 0 true locs k i = Ok r) <->
  (exists j, (Z.of_nat j < 9999)%Z /\ forall m q, m <> i -> nth_error locs m = Some q ->
     let d := distance_to xs ys (attempted draw xlen ylen k j) q in far_enough away a b d \/ (d = 0 /\ away * b <= away * a)).
Proof.
  intros W A I. split.
  - intros [fuel [r H]]. apply ends_free in H as [j [Hj Fj]]; [|lia]. exists j. split; [lia|]. intros m q N Hm. cbn zeta. pose proof (proj1 (free_iff _ _ _ _ _ _ _ _ _ _ _ _ W A I) Fj m q N Hm) as [O|O]; [right; exact O|left; exact O].
  - intros [j [Hj H]]. apply (free_ends draw xlen ylen xs ys a b away j); [lia|lia|]. apply free_iff; [assumption..|]. intros m q N Hm. destruct (H m q N Hm) as [O|O]; [right; exact O|left; exact O].
Qed.
Print Assumptions C57_ends_iff_partial.
(** C57 is false: the loop does not stop after 10000 attempts, it goes on for ever once it has made them - even if the last one was well placed. *)
Theorem C57_refuted_never_stops draw xlen ylen xs ys a b away fuel count checker locs k i : (10000 <= count)%Z ->
  reposition draw xlen ylen xs ys a b away fuel count checker locs k i = Err OutOfFuel.
Proof. apply stuck. Qed.
Print Assumptions C57_refuted_never_stops.
(** C57 is false of the whole function: on a grid of one point it never returns for two eddies with a < b, whatever the random numbers. *)
Theorem C57_refuted draw xs ys a b away fuel loc k : fair draw -> 0 < away -> 0 < a -> a < b ->
  checkposition draw 1 1 xs ys a b away fuel loc [(0, 0); (0, 0)]%nat k = Err OutOfFuel.
Proof.
  intros F W A B. assert (D : forall m, draw m 1%nat = 0%nat) by (intro m; pose proof (F m 1%nat ltac:(lia)); lia). unfold checkposition. cbn [check_from length nth_error].
  assert (C : crowded_first xs ys a b away [(0, 0); (0, 0)]%nat (0, 0)%nat = true).
  { destruct (crowded_first xs ys a b away [(0, 0); (0, 0)]%nat (0, 0)%nat) eqn:E; [reflexivity|]. exfalso. pose proof (crowded_first_ok xs ys a b away _ _ (0, 0)%nat E ltac:(left; reflexivity)) as O. rewrite dist_self in O. destruct O as [[_ O]|[O _]]; nra. }
  rewrite C. cbn [orb]. match goal with |- bind (reposition _ _ _ _ _ _ _ _ _ _ _ _ ?kk _) _ = _ => set (k0 := kk) end. destruct (reposition draw 1 1 xs ys a b away fuel 0 true [(0, 0); (0, 0)]%nat k0 0) as [r|e] eqn:R.
  - exfalso. apply ends_free in R as [j [_ Fj]]; [|lia]. rewrite free_iff in Fj by (cbn; lia || assumption). pose proof (Fj 1%nat (0, 0)%nat ltac:(lia) eq_refl) as O. unfold attempted in O. rewrite !D in O.
    rewrite <- dist_distance, dist_self in O. destruct O as [[_ O]|[O _]]; nra.
  - cbn [bind]. f_equal. clear -R. revert R. generalize 0%Z, true, ([(0, 0); (0, 0)]%nat), k0. induction fuel as [|f IH]; intros c ch l kk H; cbn [reposition] in H; destruct (ch || (10000 <=? c)%Z)%bool; try discriminate; [congruence|]. exact (IH _ _ _ _ H).
Qed.
Print Assumptions C57_refuted.
Example C57_meets : exists draw fuel r, fair draw /\ reposition draw 3 1 INR INR 1 2 1 fuel 0 true [(0, 0); (2, 0)]%nat 0 0 = Ok r.
Proof.
  exists (fun _ _ => 0%nat). destruct (proj2 (C57_ends_iff_partial (fun _ _ => 0%nat) 3 1 INR INR 1 2 1 [(0, 0); (2, 0)]%nat 0 0 ltac:(lra) ltac:(lra) ltac:(cbn; lia))) as [fuel [r E]].
  - exists 0%nat. split; [lia|]. intros [|[|[|m]]] q N H; cbn in H; try discriminate; [congruence|]. injection H as <-. cbn zeta. left. unfold far_enough, distance_to, attempted. cbn [fst snd INR].
    replace ((0 - (1 + 1)) ^ 2 + (0 - 0) ^ 2) with (2 * 2) by ring. rewrite sqrt_square by lra. lra.
  - exists fuel, r. split; [intros k n H; exact H|exact E].
Qed.

(** C58, for square grids (any option, margin and number of time steps): the cell (i, j) holds the sum of the Gaussians at (x_j, y_i) of the final axes. *)
Theorem C58_square_partial draw fuel N margin g k data g' :
  g_xlen g = g_ylen g -> (0 < g_xlen g)%nat -> g_x g <> [] -> g_y g <> [] -> g_eddies g <> [] -> (0 < N)%nat ->
  assemble_field draw fuel N margin g k = Ok (data, g') ->
  length data = N /\
  forall d, In d data -> exists cs, length cs = length (g_eddies g) /\ Forall (node (g_x g') (g_y g')) cs /\
    (plain (g_opt g) -> Forall2 (centred_at (g_x g') (g_y g') margin) (g_eddies g) cs) /\
    forall i j, (i < g_xlen g + 2 * margin)%nat -> (j < g_xlen g + 2 * margin)%nat ->
      exists x y, nth_error (g_x g') j = Some x /\ nth_error (g_y g') i = Some y /\ entry2 d i j = Some (field_at (g_eddies g) cs x y).
Proof.
  intros Sq P Nx Ny Ne PN H. destruct (stretched_some (g_x g) (g_xlen g + 2 * margin) Nx ltac:(lia)) as [x [Ex [Lx Fx]]]. destruct (stretched_some (g_y g) (g_ylen g + 2 * margin) Ny ltac:(lia)) as [y [Ey [Ly Fy]]].
  destruct (assemble_ok draw fuel margin x y N g k data g' Ex Ey Fx Fy Lx Ly H) as [L [A V]]. destruct (A Ne (or_introl PN)) as [-> ->]. split; [exact L|].
  intros d Hd. rewrite Forall_forall in V. destruct (V d Hd) as [cs [Lc [Nd [C I]]]]. exists cs. split; [exact Lc|]. split; [exact Nd|]. split; [intro Pl; exact (C (proj1 (plain_opt _ Pl)) (proj2 (plain_opt _ Pl)))|].
  intros i j Hi Hj. destruct (nth_error x j) as [ux|] eqn:Ux; [|apply nth_error_None in Ux; lia]. destruct (nth_error y i) as [uy|] eqn:Uy; [|apply nth_error_None in Uy; lia].
  exists ux, uy. split; [reflexivity|]. split; [reflexivity|]. rewrite <- Sq in I. apply (I i j Hi Hj); rewrite source_square by exact Hj; assumption.
Qed.
Print Assumptions C58_square_partial.
(** C58, for all grids: the cell (i, j) of the (xlen + 2 margin) x (ylen + 2 margin) array holds the sum at the point number i * (ylen + 2 margin) + j of the
    mesh, which has xlen + 2 margin points a row.  Missing: for grids that are not square this is not the point of the cell. *)
Theorem C58_layout_partial draw fuel N margin g k data g' :
  (0 < g_xlen g)%nat -> (0 < g_ylen g)%nat -> g_x g <> [] -> g_y g <> [] -> g_eddies g <> [] -> (0 < N)%nat ->
  assemble_field draw fuel N margin g k = Ok (data, g') ->
  forall d, In d data -> exists cs, length cs = length (g_eddies g) /\ Forall (node (g_x g') (g_y g')) cs /\
    (plain (g_opt g) -> Forall2 (centred_at (g_x g') (g_y g') margin) (g_eddies g) cs) /\
    forall i j row column, (i < g_xlen g + 2 * margin)%nat -> (j < g_ylen g + 2 * margin)%nat -> (column < g_xlen g + 2 * margin)%nat ->
      (i * (g_ylen g + 2 * margin) + j = row * (g_xlen g + 2 * margin) + column)%nat ->
      exists x y, nth_error (g_x g') column = Some x /\ nth_error (g_y g') row = Some y /\ entry2 d i j = Some (field_at (g_eddies g) cs x y).
Proof.
  intros P P' Nx Ny Ne PN H. destruct (stretched_some (g_x g) (g_xlen g + 2 * margin) Nx ltac:(lia)) as [x [Ex [Lx Fx]]]. destruct (stretched_some (g_y g) (g_ylen g + 2 * margin) Ny ltac:(lia)) as [y [Ey [Ly Fy]]].
  destruct (assemble_ok draw fuel margin x y N g k data g' Ex Ey Fx Fy Lx Ly H) as [L [A V]]. destruct (A Ne (or_introl PN)) as [-> ->].
  intros d Hd. rewrite Forall_forall in V. destruct (V d Hd) as [cs [Lc [Nd [C I]]]]. exists cs. split; [exact Lc|]. split; [exact Nd|]. split; [intro Pl; exact (C (proj1 (plain_opt _ Pl)) (proj2 (plain_opt _ Pl)))|].
  intros i j r c Hi Hj Hc E. set (X := (g_xlen g + 2 * margin)%nat) in *. set (Y := (g_ylen g + 2 * margin)%nat) in *. assert (Hr : (r < Y)%nat) by nia.
  destruct (nth_error x c) as [ux|] eqn:Ux; [|apply nth_error_None in Ux; lia]. destruct (nth_error y r) as [uy|] eqn:Uy; [|apply nth_error_None in Uy; lia].
  exists ux, uy. split; [reflexivity|]. split; [reflexivity|]. apply (I i j Hi Hj); unfold source; rewrite E, (Nat.add_comm (r * X)), ?Nat.mod_add, ?Nat.div_add by lia; rewrite ?Nat.mod_small, ?Nat.div_small by exact Hc; assumption.
Qed.
Print Assumptions C58_layout_partial.
(** C58: with the default option, assemble_field returns whenever the eddies are on the grid. *)
Theorem C58_returns draw fuel N margin g k :
  (0 < g_xlen g)%nat -> (0 < g_ylen g)%nat -> g_x g <> [] -> g_y g <> [] -> plain (g_opt g) ->
  (forall e, In e (g_eddies g) -> (e_ix e < g_xlen g /\ e_iy e < g_ylen g)%nat) ->
  exists data g', assemble_field draw fuel N margin g k = Ok (data, g').
Proof.
  intros P P' Nx Ny Pl B. destruct (plain_opt _ Pl) as [O O']. destruct (stretched_some (g_x g) (g_xlen g + 2 * margin) Nx ltac:(lia)) as [x [Ex [Lx Fx]]]. destruct (stretched_some (g_y g) (g_ylen g + 2 * margin) Ny ltac:(lia)) as [y [Ey [Ly Fy]]].
  destruct (assemble_total draw fuel margin x y N g k Ex Ey Fx Fy Lx Ly O O' B) as [[data g'] E]. eauto.
Qed.
Print Assumptions C58_returns.
Definition one_eddy (x y : list R) (e : geddy) : gen := mkGen x y (length x) (length y) 1 1 "" [e].
Definition small_eddy : geddy := mkGeddy 0 0 1 1 0 1.
Lemma small_value xo yo x y : twoD_Gaussian_at 1 xo yo 1 1 0 x y = exp (- (((x - xo) ^ 2 + (y - yo) ^ 2) / 2)).
Proof.
  unfold twoD_Gaussian_at. destruct (Req_EM_T 1 0); [lra|]. rewrite cos_0, sin_0, Rmult_0_r, sin_0. rewrite Rmult_1_l. f_equal. field.
Qed.
Lemma linspace2 : linspace 0 1 2 = [0; 1]. Proof. unfold linspace. cbn [seq map Nat.eqb Nat.sub INR]. repeat f_equal; field. Qed.
Lemma linspace3 : linspace 0 2 3 = [0; 1; 2]. Proof. unfold linspace. cbn [seq map Nat.eqb Nat.sub INR]. repeat f_equal; field. Qed.
(** C58 is false for a grid of 2 x 3 points: the array agrees neither with the reading "row i, column j is (x_i, y_j)" nor with "(x_j, y_i)". *)
Theorem C58_refuted draw fuel k : let g := one_eddy [0; 1] [0; 1; 2] small_eddy in
  exists d g', assemble_field draw fuel 1 0 g k = Ok ([d], g') /\ g_x g' = [0; 1] /\ g_y g' = [0; 1; 2] /\
  (exists v, entry2 d 0 2 = Some v /\ v <> field_at [small_eddy] [(0, 0)] 0 2) /\ (exists v, entry2 d 1 0 = Some v /\ v <> field_at [small_eddy] [(0, 0)] 0 1).
Proof.
  intro g. destruct (C58_returns draw fuel 1 0 g k) as [data [g' E]]; try (cbn; lia || discriminate || reflexivity); [exact plain_default|intros e [<-|[]]; cbn; lia|].
  assert (Sx : stretched (g_x g) (g_xlen g + 2 * 0) = Ok [0; 1]) by (cbn [g one_eddy g_x g_y g_xlen g_ylen length Nat.add Nat.mul stretched]; unfold least, greatest; cbn [fold_left]; rewrite Rmin_left, Rmax_right by lra; rewrite linspace2; reflexivity).
  assert (Sy : stretched (g_y g) (g_ylen g + 2 * 0) = Ok [0; 1; 2]) by (cbn [g one_eddy g_x g_y g_xlen g_ylen length Nat.add Nat.mul stretched]; unfold least, greatest; cbn [fold_left]; rewrite (Rmin_left 0 1), (Rmin_left 0 2), (Rmax_right 0 1), (Rmax_right 1 2) by lra; rewrite linspace3; reflexivity).
  destruct (assemble_ok draw fuel 0 [0; 1] [0; 1; 2] 1 g k data g' Sx Sy Sx Sy eq_refl eq_refl E) as [L [A V]]. destruct (A ltac:(discriminate) ltac:(left; lia)) as [Ax Ay].
  destruct data as [|d [|? ?]]; try discriminate. inversion V as [|? ? [cs [Lc [_ [C I]]]] _]; subst. specialize (C eq_refl eq_refl).
  assert (cs = [(0, 0)]) as ->. { apply (centred_unique _ _ _ _ _ _ C). constructor; [|constructor]. split; reflexivity. }
  exists d, g'. split; [exact E|]. split; [exact Ax|]. split; [exact Ay|].
  assert (N : forall s t, s <> t -> exp (- (s / 2)) <> exp (- (t / 2))) by (intros s t D Q; apply exp_inv in Q; lra).
  split; eexists; (split; [apply I; [cbn; lia|cbn; lia|reflexivity|reflexivity]|]); change (g_eddies g) with [small_eddy]; unfold field_at, Rsum; cbn [combine map fold_right fst snd small_eddy e_amp e_ra e_rb e_angle]; rewrite !small_value, !Rplus_0_r; apply N; lra.
Qed.
Print Assumptions C58_refuted.
Example C58_meets draw fuel k : exists data g', assemble_field draw fuel 2 3 (one_eddy [0; 1] [0; 1] small_eddy) k = Ok (data, g') /\ length data = 2%nat.
Proof.
  set (g := one_eddy [0; 1] [0; 1] small_eddy). destruct (C58_returns draw fuel 2 3 g k) as [data [g' E]]; try (cbn; lia || discriminate || reflexivity); [exact plain_default|intros e [<-|[]]; cbn; lia|].
  exists data, g'. split; [exact E|]. destruct (C58_square_partial draw fuel 2 3 g k data g' eq_refl ltac:(cbn; lia) ltac:(discriminate) ltac:(discriminate) ltac:(discriminate) ltac:(lia) E) as [L _]. exact L.
Qed.

(** C59 is false of every generator with at least one eddy: reconstruct_field raises ValueError, since it stretches the axes by a margin of 50 points
    but keeps an array without margin. *)
Theorem C59_refuted draw g k : fair draw -> (0 < g_xlen g)%nat -> (0 < g_ylen g)%nat -> g_x g <> [] -> g_y g <> [] -> g_eddies g <> [] ->
  (forall e, In e (g_eddies g) -> (e_ix e < g_xlen g /\ e_iy e < g_ylen g)%nat) -> reconstruct_field draw g k = Err ValueError.
Proof.
  intros F P P' Nx Ny Ne B. destruct (stretched_some (g_x g) (g_xlen g + 2 * 50) Nx ltac:(lia)) as [x [Ex [Lx _]]]. destruct (stretched_some (g_y g) (g_ylen g + 2 * 50) Ny ltac:(lia)) as [y [Ey [Ly _]]].
  unfold reconstruct_field. destruct (g_eddies g) as [|e es]; [congruence|]. cbn [add_eddies]. unfold pass_args at 1. rewrite Ex, Ey. cbn [bind]. destruct (B e ltac:(left; reflexivity)) as [Bx By].
  pose proof (F k (g_xlen g) P) as Dx. pose proof (F (S k) (g_ylen g) P') as Dy.
  match goal with |- context [if random_places (g_opt g) then ?u else ?v] => assert (Q : exists p q k', (if random_places (g_opt g) then u else v) = (p, q, k') /\ (p < g_xlen g)%nat /\ (q < g_ylen g)%nat) by (destruct (random_places (g_opt g)); eauto 10) end.
  destruct Q as [p [q [k' [-> [Hp Hq]]]]]. destruct (nth_error x (p + 50)) as [xc|] eqn:Cx; [|apply nth_error_None in Cx; lia]. destruct (nth_error y (q + 50)) as [yc|] eqn:Cy; [|apply nth_error_None in Cy; lia].
  cbn [bind g_x g_y]. unfold reshape at 1. rewrite mesh_length, Lx, Ly. destruct (Nat.eqb_spec ((g_ylen g + 2 * 50) * (g_xlen g + 2 * 50)) (g_xlen g * g_ylen g)) as [E|_]; [nia|]. reflexivity.
Qed.
Print Assumptions C59_refuted.
(** C59, for no eddies: the result is the zero field. *)
Theorem C59_empty_partial draw g k : g_eddies g = [] -> exists d, reconstruct_field draw g k = Ok d /\ length d = g_xlen g /\ forall i j, (i < g_xlen g)%nat -> (j < g_ylen g)%nat -> entry2 d i j = Some 0.
Proof.
  intro E. unfold reconstruct_field. rewrite E. eexists. split; [reflexivity|]. split; [apply repeat_length|]. intros i j. apply zeros_entry.
Qed.
Print Assumptions C59_empty_partial.
Example C59_meets draw k : fair draw -> reconstruct_field draw (one_eddy [0; 1] [0; 1; 2] small_eddy) k = Err ValueError.
Proof. intro F. apply C59_refuted; try (cbn; lia || discriminate); [exact F|]. intros e [<-|[]]. cbn. lia. Qed.

(** C62: one step of the random walk moves by [steps] in one or both coordinates, and no further. *)
Theorem C62_king_move draws x y steps : (2 <= length draws)%nat -> Forall (fun n => 1 <= n <= 8)%Z draws ->
  exists dx dy, make_random_walk draws [x; y] steps = Ok (x + dx * steps, y + dy * steps)%Z /\ (-1 <= dx <= 1 /\ -1 <= dy <= 1 /\ (dx <> 0 \/ dy <> 0))%Z.
Proof.
  intros L F. destruct draws as [|n1 [|n2 t]]; cbn in L; try lia. inversion F as [|? ? _ F1]; subst. inversion F1 as [|? ? H _]; subst. unfold make_random_walk. cbn [length firstn map last].
  assert (n2 = 1 \/ n2 = 2 \/ n2 = 3 \/ n2 = 4 \/ n2 = 5 \/ n2 = 6 \/ n2 = 7 \/ n2 = 8)%Z as C by lia.
  assert (S : exists dx dy, move n2 steps = Some (dx * steps, dy * steps)%Z /\ (-1 <= dx <= 1 /\ -1 <= dy <= 1 /\ (dx <> 0 \/ dy <> 0))%Z).
  { destruct C as [->|[->|[->|[->|[->|[->|[->| ->]]]]]]]; cbn [move]; [exists 1%Z, 0%Z|exists 0%Z, 1%Z|exists 0%Z, (-1)%Z|exists (-1)%Z, 0%Z|exists (-1)%Z, (-1)%Z|exists (-1)%Z, 1%Z|exists 1%Z, (-1)%Z|exists 1%Z, 1%Z]; (split; [do 2 f_equal; ring|lia]). }
  destruct S as [dx [dy [-> B]]]. exists dx, dy. split; [reflexivity|exact B].
Qed.
Print Assumptions C62_king_move.
(** C62: every one of the eight neighbours is reached by exactly one value of the random draw. *)
Theorem C62_all_directions first x y steps dx dy : (steps <> 0)%Z -> (1 <= first <= 8)%Z -> (-1 <= dx <= 1)%Z -> (-1 <= dy <= 1)%Z -> (dx <> 0 \/ dy <> 0)%Z ->
  exists n, (1 <= n <= 8)%Z /\ forall m, (1 <= m <= 8)%Z -> make_random_walk [first; m] [x; y] steps = Ok (x + dx * steps, y + dy * steps)%Z <-> m = n.
Proof.
  intros S _ Hx Hy N. assert (Q : forall n u v, move n steps = Some (u * steps, v * steps)%Z -> make_random_walk [first; n] [x; y] steps = Ok (x + u * steps, y + v * steps)%Z).
  { intros n u v E. unfold make_random_walk. cbn [length firstn map last]. rewrite E. reflexivity. }
  assert (T : forall m, (1 <= m <= 8)%Z -> exists u v, move m steps = Some (u * steps, v * steps)%Z /\ (m = 1 /\ u = 1 /\ v = 0 \/ m = 2 /\ u = 0 /\ v = 1 \/ m = 3 /\ u = 0 /\ v = -1 \/ m = 4 /\ u = -1 /\ v = 0 \/
     m = 5 /\ u = -1 /\ v = -1 \/ m = 6 /\ u = -1 /\ v = 1 \/ m = 7 /\ u = 1 /\ v = -1 \/ m = 8 /\ u = 1 /\ v = 1)%Z).
  { intros m Hm. assert (m = 1 \/ m = 2 \/ m = 3 \/ m = 4 \/ m = 5 \/ m = 6 \/ m = 7 \/ m = 8)%Z as C by lia.
    destruct C as [->|[->|[->|[->|[->|[->|[->| ->]]]]]]]; cbn [move]; [exists 1%Z, 0%Z|exists 0%Z, 1%Z|exists 0%Z, (-1)%Z|exists (-1)%Z, 0%Z|exists (-1)%Z, (-1)%Z|exists (-1)%Z, 1%Z|exists 1%Z, (-1)%Z|exists 1%Z, 1%Z]; (split; [do 2 f_equal; ring|lia]). }
  assert (D : forall n, (1 <= n <= 8)%Z -> (n = 1 /\ dx = 1 /\ dy = 0 \/ n = 2 /\ dx = 0 /\ dy = 1 \/ n = 3 /\ dx = 0 /\ dy = -1 \/ n = 4 /\ dx = -1 /\ dy = 0 \/
     n = 5 /\ dx = -1 /\ dy = -1 \/ n = 6 /\ dx = -1 /\ dy = 1 \/ n = 7 /\ dx = 1 /\ dy = -1 \/ n = 8 /\ dx = 1 /\ dy = 1)%Z ->
     forall m, (1 <= m <= 8)%Z -> make_random_walk [first; m] [x; y] steps = Ok (x + dx * steps, y + dy * steps)%Z <-> m = n).
  { intros n Hn Dn m Hm. destruct (T m Hm) as [u [v [E U]]]. rewrite (Q m u v E). split.
    - intro K. assert (K1 : (x + u * steps = x + dx * steps)%Z) by congruence. assert (K2 : (y + v * steps = y + dy * steps)%Z) by congruence.
      assert (u = dx) by (apply Z.add_reg_l, Z.mul_reg_r in K1; assumption). assert (v = dy) by (apply Z.add_reg_l, Z.mul_reg_r in K2; assumption). lia.
    - intros ->. assert (u = dx /\ v = dy) as [-> ->] by lia. reflexivity. }
  assert (C : exists n, (1 <= n <= 8)%Z /\ (n = 1 /\ dx = 1 /\ dy = 0 \/ n = 2 /\ dx = 0 /\ dy = 1 \/ n = 3 /\ dx = 0 /\ dy = -1 \/ n = 4 /\ dx = -1 /\ dy = 0 \/
     n = 5 /\ dx = -1 /\ dy = -1 \/ n = 6 /\ dx = -1 /\ dy = 1 \/ n = 7 /\ dx = 1 /\ dy = -1 \/ n = 8 /\ dx = 1 /\ dy = 1)%Z).
  { assert (dx = -1 \/ dx = 0 \/ dx = 1)%Z as [->|[->| ->]] by lia; assert (dy = -1 \/ dy = 0 \/ dy = 1)%Z as [->|[->| ->]] by lia; try lia;
    [exists 5%Z|exists 4%Z|exists 6%Z|exists 3%Z|exists 2%Z|exists 7%Z|exists 1%Z|exists 8%Z]; lia. }
  destruct C as [n [Hn Dn]]. exists n. split; [exact Hn|]. apply D; assumption.
Qed.
Print Assumptions C62_all_directions.
Example C62_meets : make_random_walk [3; 6]%Z [10; 20]%Z 2 = Ok (8, 22)%Z. Proof. reflexivity. Qed.

(** C74: whatever is not an integer is rejected, but never with the ValueError of the code. *)
Theorem C74_rejected_partial a : (forall n, a <> PyInt n) -> exists e, eddy_numbers a = Err e.
Proof. intro H. destruct a; [exfalso; apply (H n); reflexivity| | |]; exists TypeError; reflexivity. Qed.
Print Assumptions C74_rejected_partial.
Theorem C74_refuted a : eddy_numbers a <> Err ValueError /\ eddy_numbers PyList = Err TypeError /\ eddy_numbers PyTuple = Err TypeError.
Proof. split; [destruct a; discriminate|]. split; reflexivity. Qed.
Print Assumptions C74_refuted.
(** C74: an integer gives that many eddies, numbered from 0 (a negative one gives none). *)
Theorem C74_count n : exists l, eddy_numbers (PyInt n) = Ok l /\ Z.of_nat (length l) = Z.max 0 n /\ NoDup l /\ forall i, In i l <-> (Z.of_nat i < n)%Z.
Proof. eexists. split; [reflexivity|]. split; [rewrite seq_length; lia|]. split; [apply seq_NoDup|]. intro i. rewrite in_seq. lia. Qed.
Print Assumptions C74_count.

(** C75: without margin, an eddy is centred where it was placed, on an equally spaced grid. *)
Theorem C75_centre_without_margin_partial draw e g k lo hi lo' hi' : lo <= hi -> lo' <= hi' -> g_x g = linspace lo hi (g_xlen g) -> g_y g = linspace lo' hi' (g_ylen g) ->
  plain (g_opt g) -> (e_ix e < g_xlen g)%nat -> (e_iy e < g_ylen g)%nat ->
  exists c, pass_args draw e 0 g k = Ok (g, k, c) /\ nth_error (g_x g) (e_ix e) = Some (fst c) /\ nth_error (g_y g) (e_iy e) = Some (snd c).
Proof.
  intros H H' Ex Ey Pl Hx Hy. destruct (plain_opt _ Pl) as [O _]. unfold pass_args. cbn [Nat.mul]. rewrite !Nat.add_0_r, O.
  assert (Sx : stretched (g_x g) (g_xlen g) = Ok (g_x g)) by (rewrite Ex at 1; rewrite stretched_twice by (assumption || lia); rewrite Ex; reflexivity).
  assert (Sy : stretched (g_y g) (g_ylen g) = Ok (g_y g)) by (rewrite Ey at 1; rewrite stretched_twice by (assumption || lia); rewrite Ey; reflexivity).
  rewrite Sx, Sy. cbn [bind]. rewrite !Nat.add_0_r.
  destruct (nth_error (g_x g) (e_ix e)) as [xc|] eqn:Cx; [|apply nth_error_None in Cx; rewrite Ex, linspace_length in Cx; lia].
  destruct (nth_error (g_y g) (e_iy e)) as [yc|] eqn:Cy; [|apply nth_error_None in Cy; rewrite Ey, linspace_length in Cy; lia].
  exists (xc, yc). split; [destruct g; reflexivity|]. split; reflexivity.
Qed.
Print Assumptions C75_centre_without_margin_partial.
(** C75, with the option "interaction" or "int": the centre is the grid point with the two indices drawn, shifted by the margin, wherever the eddy was placed. *)
Theorem C75_drawn_centre_partial draw e margin g k g' k' c : g_opt g = "interaction"%string \/ g_opt g = "int"%string ->
  pass_args draw e margin g k = Ok (g', k', c) ->
  k' = (k + 2)%nat /\ nth_error (g_x g') (draw k (g_xlen g) + margin) = Some (fst c) /\ nth_error (g_y g') (draw (k + 1)%nat (g_ylen g) + margin) = Some (snd c).
Proof.
  intros O H. assert (R : random_places (g_opt g) = true) by (destruct O as [-> | ->]; reflexivity). unfold pass_args in H. rewrite R in H.
  destruct (stretched (g_x g) _) as [x|] eqn:Ex; [|discriminate]. destruct (stretched (g_y g) _) as [y|] eqn:Ey; [|discriminate]. cbn [bind] in H.
  destruct (nth_error x _) as [xc|] eqn:Cx; [|discriminate]. destruct (nth_error y _) as [yc|] eqn:Cy; [|discriminate]. injection H as <- <- <-. cbn [g_x g_y fst snd].
  split; [lia|]. split; [exact Cx|]. rewrite Nat.add_1_r. exact Cy.
Qed.
Print Assumptions C75_drawn_centre_partial.
(** C75 is false with a margin: it is put inside the range of the axes, and the eddy moves. *)
Theorem C75_refuted draw k : let g := one_eddy [0; 1] [0; 1] small_eddy in
  exists g' xc yc, pass_args draw small_eddy 1 g k = Ok (g', k, (xc, yc)) /\ nth_error (g_x g) (e_ix small_eddy) = Some 0 /\ xc = 1 / 3 /\ yc = 1 / 3.
Proof.
  intro g. unfold pass_args. cbn [g one_eddy g_x g_y g_xlen g_ylen g_opt g_eddies g_a g_b small_eddy e_ix e_iy length Nat.add Nat.mul stretched]. unfold least, greatest. cbn [fold_left bind].
  rewrite Rmin_left, Rmax_right by lra. change (random_places "") with false. cbn match. unfold linspace. cbn [seq map Nat.eqb Nat.sub Nat.add nth_error INR].
  eexists _, _, _. split; [reflexivity|]. split; [reflexivity|]. split; field.
Qed.
Print Assumptions C75_refuted.
Example C75_meets : exists lo hi, lo <= hi /\ [0; 1; 2] = linspace lo hi (length [0; 1; 2]).
Proof. exists 0, 2. split; [lra|]. symmetry. exact linspace3. Qed.

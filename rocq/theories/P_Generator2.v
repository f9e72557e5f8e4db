(** Property C94: synthetic fields whose eddies are not to interact. *)
From Coq Require Import Reals Lra Lia.
From Verif Require Import M_Base M_Gauss M_Generator S_Generator L_Generator L_Generator2.
Open Scope R_scope.

Lemma opt_kept opt : opt = "no_interaction"%string \/ opt = "Nint"%string -> kept_apart opt = true.
Proof. intros [-> | ->]; reflexivity. Qed.
Lemma on_grid_eddies X Y es : (forall e, In e es -> (e_ix e < X /\ e_iy e < Y)%nat) -> on_grid X Y (map (fun e => (e_ix e, e_iy e)) es).
Proof. intros H p Hp. apply in_map_iff in Hp as [e [<- He]]. exact (H e He). Qed.

(** C94, without its first field: with the option "no_interaction" (or "Nint"), every further field that assemble_field returns shows all the eddies, and any
    two of their centres are at least five times a and five times b apart.  Missing: the first field (see C94_first_field_partial and C94_refuted), and
    eddies in the same place when b <= a (see C56_refuted). *)
Theorem C94_later_fields_partial draw fuel N margin g k first rest g' :
  g_opt g = "no_interaction"%string \/ g_opt g = "Nint"%string -> fair draw -> (0 < g_xlen g)%nat -> (0 < g_ylen g)%nat -> g_x g <> [] -> g_y g <> [] -> g_eddies g <> [] ->
  (forall e, In e (g_eddies g) -> (e_ix e < g_xlen g /\ e_iy e < g_ylen g)%nat) ->
  assemble_field draw fuel N margin g k = Ok (first :: rest, g') ->
  forall d, In d rest -> exists cs, length cs = length (g_eddies g) /\
    shows (g_xlen g + 2 * margin) (g_ylen g + 2 * margin) (g_x g') (g_y g') (g_eddies g) cs d /\ spread 5 (g_a g) (g_b g) cs.
Proof.
  intros O F X Y Nx Ny Ne B H d Hd. destruct (stretched_some (g_x g) (g_xlen g + 2 * margin) Nx ltac:(lia)) as [x [Ex [Lx Fx]]]. destruct (stretched_some (g_y g) (g_ylen g + 2 * margin) Ny ltac:(lia)) as [y [Ey [Ly Fy]]].
  pose proof H as H0. unfold assemble_field in H. apply opt_kept in O. destruct N as [|N]; [discriminate|].
  destruct (assemble_ok draw fuel margin x y (S N) g k _ g' Ex Ey Fx Fy Lx Ly H) as [_ [A _]]. destruct (A Ne (or_introl (Nat.lt_0_succ N))) as [-> ->].
  destruct (one_step draw fuel N margin x y g k _ g' O F X Y (on_grid_eddies _ _ _ B) Ex Ey Fx Fy Lx Ly H) as [locs [cs [d0 [rest0 [g2 [k2 [E [L1 [O1 [Lc [P [C [V [R [E1 [E2 [E3 [E4 [E5 [E6 [E7 E8]]]]]]]]]]]]]]]]]]]]].
  injection E as <- <-. destruct (E8 Ne) as [Gx Gy]. assert (Len : length (g_eddies g2) = length (g_eddies g)) by (rewrite <- (map_length shape), E6, map_length; reflexivity).
  apply (later_fields draw fuel margin x y) in R; rewrite ?E1, ?E2, ?E3, ?E7; try assumption; [|destruct (g_eddies g2), (g_eddies g); cbn in Len; congruence].
  rewrite Forall_forall in R. destruct (R d Hd) as [cs' [Lc' [Sh Sp]]]. rewrite E1, E2 in Sh. rewrite E4, E5 in Sp. exists cs'. split; [congruence|]. split; [|exact Sp].
  intros i j r c Hi Hj Hc E. destruct (Sh i j r c Hi Hj Hc E) as [u [v [Hu [Hv He]]]]. exists u, v. split; [exact Hu|]. split; [exact Hv|]. rewrite He. f_equal. apply field_shape, E6.
Qed.
Print Assumptions C94_later_fields_partial.

(** C94, the first field: the eddies are placed at grid points that are far enough from each other on the axes that were given, but are drawn at the points
    with the same indices plus the margin on the axes of the field. *)
Theorem C94_first_field_partial draw fuel N margin g k first rest g' :
  g_opt g = "no_interaction"%string \/ g_opt g = "Nint"%string -> fair draw -> (0 < g_xlen g)%nat -> (0 < g_ylen g)%nat -> g_x g <> [] -> g_y g <> [] -> g_eddies g <> [] ->
  (forall e, In e (g_eddies g) -> (e_ix e < g_xlen g /\ e_iy e < g_ylen g)%nat) ->
  assemble_field draw fuel N margin g k = Ok (first :: rest, g') ->
  exists locs cs, length locs = length (g_eddies g) /\ length cs = length (g_eddies g) /\ on_grid (g_xlen g) (g_ylen g) locs /\
    shows (g_xlen g + 2 * margin) (g_ylen g + 2 * margin) (g_x g') (g_y g') (g_eddies g) cs first /\
    (forall i c, nth_error cs i = Some c -> exists p, nth_error locs i = Some p /\ nth_error (g_x g') (fst p + margin) = Some (fst c) /\ nth_error (g_y g') (snd p + margin) = Some (snd c)) /\
    (forall i j d, i <> j -> separation (fun n => nth n (g_x g) 0) (fun n => nth n (g_y g) 0) locs i j d -> far_enough 5 (g_a g) (g_b g) d \/ (d = 0 /\ 5 * g_b g <= 5 * g_a g)).
Proof.
  intros O F X Y Nx Ny Ne B H. destruct (stretched_some (g_x g) (g_xlen g + 2 * margin) Nx ltac:(lia)) as [x [Ex [Lx Fx]]]. destruct (stretched_some (g_y g) (g_ylen g + 2 * margin) Ny ltac:(lia)) as [y [Ey [Ly Fy]]].
  pose proof H as H0. unfold assemble_field in H. apply opt_kept in O. destruct N as [|N]; [discriminate|].
  destruct (assemble_ok draw fuel margin x y (S N) g k _ g' Ex Ey Fx Fy Lx Ly H) as [_ [A _]]. destruct (A Ne (or_introl (Nat.lt_0_succ N))) as [-> ->].
  destruct (one_step draw fuel N margin x y g k _ g' O F X Y (on_grid_eddies _ _ _ B) Ex Ey Fx Fy Lx Ly H) as [locs [cs [d0 [rest0 [g2 [k2 [E [L1 [O1 [Lc [P [C [V _]]]]]]]]]]]]].
  injection E as <- <-. exists locs, cs. split; [exact L1|]. split; [exact Lc|]. split; [exact O1|]. split; [apply is_field_shows; assumption|]. split; [exact C|].
  intros i j d Nij [p [q [Hp [Hq ->]]]]. specialize (P i j Nij p q Hp Hq). rewrite dist_distance in P. destruct P as [Q|Q]; [right|left]; exact Q.
Qed.
Print Assumptions C94_first_field_partial.

(** C94, with margin 0 on equally spaced axes: all the fields. *)
Theorem C94_no_margin_partial draw fuel N g k data g' lo hi lo' hi' :
  g_opt g = "no_interaction"%string \/ g_opt g = "Nint"%string -> fair draw -> (0 < g_xlen g)%nat -> (0 < g_ylen g)%nat -> lo <= hi -> lo' <= hi' ->
  g_x g = linspace lo hi (g_xlen g) -> g_y g = linspace lo' hi' (g_ylen g) -> g_eddies g <> [] ->
  (forall e, In e (g_eddies g) -> (e_ix e < g_xlen g /\ e_iy e < g_ylen g)%nat) ->
  assemble_field draw fuel N 0 g k = Ok (data, g') ->
  forall d, In d data -> exists cs, length cs = length (g_eddies g) /\ shows (g_xlen g) (g_ylen g) (g_x g) (g_y g) (g_eddies g) cs d /\ spread 5 (g_a g) (g_b g) cs.
Proof.
  intros O F X Y W W' Ex Ey Ne B H d Hd. apply opt_kept in O. unfold assemble_field in H.
  pose proof (later_fields draw fuel 0 (g_x g) (g_y g) N g k data g' O F X Y (on_grid_eddies _ _ _ B) Ne eq_refl eq_refl) as L. cbn [Nat.mul] in L. rewrite !Nat.add_0_r in L.
  rewrite Forall_forall in L. apply L; try assumption.
  - rewrite Ex. apply stretched_twice; assumption.
  - rewrite Ey. apply stretched_twice; assumption.
  - rewrite Ex. apply linspace_length.
  - rewrite Ey. apply linspace_length.
Qed.
Print Assumptions C94_no_margin_partial.

(** C94 is false of the first field: on the axes [0; 10] and [0], with a = 1, b = 2 and a margin of one point, the centres are 10/3 apart in the field instead of
    10 = 5 b. *)
Definition pair_gen : gen := mkGen [0; 10] [0] 2 1 1 2 "no_interaction" [mkGeddy 0 0 1 2 0 1; mkGeddy 1 0 1 2 0 1].
Definition pair_draw (k n : nat) : nat := if (Nat.eqb k 6 && Nat.ltb 1 n)%bool then 1%nat else 0%nat.
Lemma pair_fair : fair pair_draw.
Proof. intros k n H. unfold pair_draw. destruct (Nat.eqb k 6); [|exact H]. destruct (Nat.ltb_spec 1 n); cbn; lia. Qed.
Lemma pair_returns margin : exists first g', assemble_field pair_draw 1 1 margin pair_gen 0 = Ok ([first], g').
Proof.
  assert (S10 : sqrt ((0 - 10) ^ 2 + (0 - 0) ^ 2) = 10) by (replace ((0 - 10) ^ 2 + (0 - 0) ^ 2) with (10 * 10) by ring; apply sqrt_square; lra).
  assert (S01 : sqrt ((10 - 0) ^ 2 + (0 - 0) ^ 2) = 10) by (replace ((10 - 0) ^ 2 + (0 - 0) ^ 2) with (10 * 10) by ring; apply sqrt_square; lra).
  assert (C0 : crowded (fun i => nth i [0; 10] 0) (fun i => nth i [0] 0) 1 2 5 [(0, 0); (1, 0)]%nat (0, 0)%nat = false).
  { refine (proj2 (free_iff (fun _ _ => 0%nat) 2 1 (fun i => nth i [0; 10] 0) (fun i => nth i [0] 0) 1 2 5 [(0, 0); (1, 0)]%nat 0 0 0 ltac:(lra) ltac:(lra) ltac:(cbn; lia)) _).
    intros [|[|[|m]]] q Nm Hq; cbn in Hq; try discriminate; [congruence|]. injection Hq as <-. right. unfold distance_to, attempted. cbn [fst snd nth]. rewrite S10. lra. }
  assert (C1 : crowded (fun i => nth i [0; 10] 0) (fun i => nth i [0] 0) 1 2 5 [(0, 0); (1, 0)]%nat (1, 0)%nat = false).
  { refine (proj2 (free_iff (fun k _ => if Nat.eqb k 0 then 1 else 0)%nat 2 1 (fun i => nth i [0; 10] 0) (fun i => nth i [0] 0) 1 2 5 [(0, 0); (1, 0)]%nat 0 1 0 ltac:(lra) ltac:(lra) ltac:(cbn; lia)) _).
    intros [|[|[|m]]] q Nm Hq; cbn in Hq; try discriminate; [|congruence]. injection Hq as <-. right. unfold distance_to, attempted. cbn [fst snd nth Nat.eqb Nat.add Nat.mul]. rewrite S01. lra. }
  unfold assemble_field. cbn [assemble_from]. change (kept_apart (g_opt pair_gen)) with true. cbv iota.
  assert (E : checkposition pair_draw 2 1 (fun i => nth i [0; 10] 0) (fun i => nth i [0] 0) 1 2 5 1 true [(0, 0); (1, 0)]%nat 0 = Ok ([(0, 0); (1, 0)]%nat, 8%nat)).
  { unfold checkposition. cbn [length Nat.mul Nat.add check_from nth_error]. rewrite !orb_true_r. cbn [reposition orb].
    change (pair_draw 4 2, pair_draw 5 1) with (0, 0)%nat. cbn [set_nth]. rewrite C0. change (10000 <=? 0 + 1)%Z with false. cbn [orb bind fst snd check_from nth_error]. rewrite !orb_true_r. cbn [reposition orb].
    change (pair_draw 6 2, pair_draw 7 1) with (1, 0)%nat. cbn [set_nth]. rewrite C1. change (10000 <=? 0 + 1)%Z with false. reflexivity. }
  cbn [pair_gen g_x g_y g_xlen g_ylen g_a g_b g_opt g_eddies map e_ix e_iy]. rewrite E. cbn [bind fst snd g_x g_y g_xlen g_ylen g_a g_b g_opt g_eddies].
  set (g1 := mkGen [0; 10] [0] 2 1 1 2 "no_interaction" _).
  destruct (stretched_some (g_x g1) (g_xlen g1 + 2 * margin) ltac:(discriminate) ltac:(cbn; lia)) as [x [Ex [Lx Fx]]]. destruct (stretched_some (g_y g1) (g_ylen g1 + 2 * margin) ltac:(discriminate) ltac:(cbn; lia)) as [y [Ey [Ly Fy]]].
  destruct (add_eddies_total pair_draw margin x y (g_eddies g1) (zeros (g_xlen g1 + 2 * margin) (g_ylen g1 + 2 * margin)) g1 8 Ex Ey Fx Fy Lx Ly eq_refl) as [d [g2 [k2 A]]].
  { intros e [<-|[<-|[]]]; cbn; lia. }
  change (place_eddies _ _) with (g_eddies g1). cbn [g_xlen g_ylen g1] in A. rewrite A. cbn [bind fst snd]. eauto.
Qed.
Theorem C94_refuted : exists first g' c c', assemble_field pair_draw 1 1 1 pair_gen 0 = Ok ([first], g') /\
  shows 4 3 (g_x g') (g_y g') (g_eddies pair_gen) [c; c'] first /\ sqrt ((fst c - fst c') ^ 2 + (snd c - snd c') ^ 2) = 10 / 3 /\ 5 * g_b pair_gen = 10.
Proof.
  destruct (pair_returns 1) as [first [g' E]].
  destruct (C94_first_field_partial pair_draw 1 1 1 pair_gen 0 first [] g') as [locs [cs [Ll [Lc [G [Sh [C P]]]]]]]; try (cbn; lia || discriminate); [left; reflexivity|exact pair_fair|intros e [<-|[<-|[]]]; cbn; lia|exact E|].
  destruct cs as [|c [|c' [|]]]; try discriminate. exists first, g', c, c'. split; [exact E|]. split; [exact Sh|]. split; [|cbn; ring].
  destruct (stretched_some (g_x pair_gen) (g_xlen pair_gen + 2 * 1) ltac:(discriminate) ltac:(cbn; lia)) as [x [Ex [Lx Fx]]]. destruct (stretched_some (g_y pair_gen) (g_ylen pair_gen + 2 * 1) ltac:(discriminate) ltac:(cbn; lia)) as [y [Ey [Ly Fy]]].
  destruct (assemble_ok pair_draw 1 1 x y 1 pair_gen 0 [first] g' Ex Ey Fx Fy Lx Ly E) as [_ [A _]]. destruct (A ltac:(discriminate) (or_introl (Nat.lt_0_succ 0))) as [Gx Gy]. rewrite Gx, Gy in C.
  cbn [pair_gen g_x g_y g_xlen g_ylen Nat.add Nat.mul stretched] in Ex, Ey. unfold least, greatest in Ex, Ey. cbn [fold_left] in Ex, Ey. rewrite Rmin_left, Rmax_right in Ex by lra. injection Ex as <-. injection Ey as <-.
  destruct (C 0%nat c eq_refl) as [p [Hp [Cx Cy]]]. destruct (C 1%nat c' eq_refl) as [q [Hq [Dx Dy]]].
  destruct (G p (nth_error_In _ _ Hp)) as [Px Py]. destruct (G q (nth_error_In _ _ Hq)) as [Qx Qy]. cbn [pair_gen g_xlen g_ylen] in Px, Py, Qx, Qy.
  assert (D : fst p <> fst q).
  { intro I. destruct (P 0%nat 1%nat 0 ltac:(lia)) as [[_ W]|[_ W]]; [|cbn in W; lra..]. exists p, q. split; [exact Hp|]. split; [exact Hq|]. rewrite I. replace (snd p) with (snd q) by lia.
    symmetry. replace (_ + _) with 0 by ring. apply sqrt_0. }
  destruct p as [p1 p2], q as [q1 q2]. cbn [fst snd] in *. assert (p2 = 0%nat) by lia. assert (q2 = 0%nat) by lia. subst p2 q2.
  unfold linspace in *. cbn [seq map Nat.eqb Nat.sub Nat.add nth_error] in *. injection Cy as Cy. injection Dy as Dy. rewrite <- Cy, <- Dy.
  assert (T : (fst c - fst c') ^ 2 = 10 / 3 * (10 / 3)).
  { destruct p1 as [|[|]]; [| |lia]; destruct q1 as [|[|]]; [congruence| |lia| |congruence|lia]; cbn [nth_error Nat.add] in Cx, Dx; injection Cx as Cx; injection Dx as Dx; rewrite <- Cx, <- Dx; cbn [INR]; field. }
  rewrite T. replace (_ + _) with (10 / 3 * (10 / 3)) by ring. apply sqrt_square. lra.
Qed.
Print Assumptions C94_refuted.
Example C94_meets : exists first g', assemble_field pair_draw 1 1 0 pair_gen 0 = Ok ([first], g') /\ exists lo hi lo' hi', lo <= hi /\ lo' <= hi' /\ g_x pair_gen = linspace lo hi 2 /\ g_y pair_gen = linspace lo' hi' 1.
Proof.
  destruct (pair_returns 0) as [first [g' E]]. exists first, g'. split; [exact E|]. exists 0, 10, 0, 0. split; [lra|]. split; [lra|]. unfold linspace. cbn. split; [|reflexivity]. repeat f_equal; field.
Qed.

(** Lemmas for the option "no_interaction" of synthetic fields. *)
From Coq Require Import Reals Lra Lia.
From Verif Require Import M_Base M_Gauss M_Generator S_Generator L_Generator.
Open Scope R_scope.

Lemma linspace_shift lo hi n m p q u v : (p + m < n)%nat -> (q + m < n)%nat -> nth_error (linspace lo hi n) (p + m) = Some u -> nth_error (linspace lo hi n) (q + m) = Some v ->
  u - v = nth p (linspace lo hi n) 0 - nth q (linspace lo hi n) 0.
Proof.
  intros Hp Hq Hu Hv. apply (nth_error_nth _ _ 0) in Hu, Hv. rewrite <- Hu, <- Hv. unfold linspace.
  set (f := fun k => if Nat.eqb n 1 then lo else lo + INR k * ((hi - lo) / INR (n - 1))).
  assert (E : forall k, (k < n)%nat -> nth k (map f (seq 0 n)) 0 = f k).
  { intros k Hk. rewrite (nth_indep _ 0 (f 0%nat)) by (rewrite map_length, seq_length; exact Hk). rewrite map_nth, seq_nth by exact Hk. reflexivity. }
  rewrite !E by lia. unfold f. destruct (Nat.eqb n 1); [ring|]. rewrite !plus_INR. ring.
Qed.
Lemma stretched_linspace l n l' : stretched l n = Ok l' -> exists lo hi, l' = linspace lo hi n.
Proof. destruct l as [|z l]; [discriminate|]. cbn. intros [= <-]. eauto. Qed.
Lemma is_field_shows X Y x y es cs d : length x = X -> length y = Y -> is_field X Y x y es cs d -> shows X Y x y es cs d.
Proof.
  intros Lx Ly I i j r c Hi Hj Hc E. assert (Hr : (r < Y)%nat) by nia.
  destruct (nth_error x c) as [ux|] eqn:Ux; [|apply nth_error_None in Ux; lia]. destruct (nth_error y r) as [uy|] eqn:Uy; [|apply nth_error_None in Uy; lia].
  exists ux, uy. split; [reflexivity|]. split; [reflexivity|]. apply (I i j Hi Hj); unfold source; rewrite E, (Nat.add_comm (r * X)), ?Nat.mod_add, ?Nat.div_add by lia; rewrite ?Nat.mod_small, ?Nat.div_small by exact Hc; assumption.
Qed.
Lemma place_locs es : forall locs, length locs = length es -> map (fun e => (e_ix e, e_iy e)) (place_eddies es locs) = locs.
Proof. unfold place_eddies. induction es as [|e es IH]; intros [|[p q] locs] H; try discriminate; [reflexivity|]. cbn [combine map fst snd e_ix e_iy]. injection H as H. rewrite IH by exact H. reflexivity. Qed.
Lemma kept_not_random opt : kept_apart opt = true -> random_places opt = false.
Proof.
  unfold kept_apart, random_places. intro H. apply orb_true_iff in H as [H|H]; apply String.eqb_eq in H; subst; reflexivity.
Qed.
Lemma Forall2_nth {A B} (P : A -> B -> Prop) l : forall l' i y, Forall2 P l l' -> nth_error l' i = Some y -> exists x, nth_error l i = Some x /\ P x y.
Proof.
  induction l as [|x l IH]; intros l' i y H Hi; inversion H; subst; [destruct i; discriminate|]. destruct i as [|i]; cbn in *; [injection Hi as <-; eauto|]. eapply IH; eauto.
Qed.
(** One step with the option: the eddies are placed at [locs], which are on the grid and apart on the axes from before. *)
Lemma one_step draw fuel N margin x y g k data g' : kept_apart (g_opt g) = true -> fair draw -> (0 < g_xlen g)%nat -> (0 < g_ylen g)%nat -> on_grid (g_xlen g) (g_ylen g) (map (fun e => (e_ix e, e_iy e)) (g_eddies g)) ->
  stretched (g_x g) (g_xlen g + 2 * margin) = Ok x -> stretched (g_y g) (g_ylen g + 2 * margin) = Ok y -> stretched x (g_xlen g + 2 * margin) = Ok x -> stretched y (g_ylen g + 2 * margin) = Ok y ->
  length x = (g_xlen g + 2 * margin)%nat -> length y = (g_ylen g + 2 * margin)%nat ->
  assemble_from draw fuel (S N) margin g k = Ok (data, g') ->
  exists locs cs d rest g2 k2, data = d :: rest /\ length locs = length (g_eddies g) /\ on_grid (g_xlen g) (g_ylen g) locs /\ length cs = length (g_eddies g) /\
    (forall i j, i <> j -> pair_ok (fun i => nth i (g_x g) 0) (fun i => nth i (g_y g) 0) (g_a g) (g_b g) 5 locs i j) /\
    (forall i c, nth_error cs i = Some c -> exists p, nth_error locs i = Some p /\ nth_error x (fst p + margin) = Some (fst c) /\ nth_error y (snd p + margin) = Some (snd c)) /\
    is_field (g_xlen g + 2 * margin) (g_ylen g + 2 * margin) x y (g_eddies g) cs d /\
    assemble_from draw fuel N margin g2 k2 = Ok (rest, g') /\ g_xlen g2 = g_xlen g /\ g_ylen g2 = g_ylen g /\ g_opt g2 = g_opt g /\ g_a g2 = g_a g /\ g_b g2 = g_b g /\
    map shape (g_eddies g2) = map shape (g_eddies g) /\ map (fun e => (e_ix e, e_iy e)) (g_eddies g2) = locs /\ (g_eddies g <> [] -> g_x g2 = x /\ g_y g2 = y).
Proof.
  intros K F X Y G Ex Ey Fx Fy Lx Ly H. cbn [assemble_from] in H. rewrite K in H.
  match type of H with bind (bind ?r _) _ = _ => destruct r as [[l1 k1]|?] eqn:C; [|discriminate] end. cbn [bind fst snd g_x g_y g_xlen g_ylen g_eddies] in H.
  unfold checkposition in C. apply check_from_ok in C; [|reflexivity|intros m j Hm; lia]. destruct C as [L1 [P1 O1]]. specialize (O1 X Y F G). rewrite map_length in L1, P1.
  set (g1 := mkGen (g_x g) (g_y g) (g_xlen g) (g_ylen g) (g_a g) (g_b g) (g_opt g) (place_eddies (g_eddies g) l1)) in *.
  match type of H with bind ?r _ = _ => destruct r as [[[d g2] k2]|?] eqn:A; [|discriminate] end. cbn [bind] in H.
  match type of H with bind ?r _ = _ => destruct r as [[rest g3]|?] eqn:Rest; [|discriminate] end. cbn [bind fst snd] in H. injection H as <- <-.
  pose proof (place_shape (g_eddies g) l1 L1) as S1. pose proof (place_locs (g_eddies g) l1 L1) as S2.
  assert (Len : length (place_eddies (g_eddies g) l1) = length (g_eddies g)) by (rewrite <- (map_length shape), S1, map_length; reflexivity).
  destruct (add_eddies_ok draw margin (g_xlen g + 2 * margin) (g_ylen g + 2 * margin) x y (place_eddies (g_eddies g) l1) (zeros (g_xlen g + 2 * margin) (g_ylen g + 2 * margin)) g1 k1 d g2 k2 Ex Ey Fx Fy A) as [[K1 [K2 [K3 [K4 [K5 K6]]]]] [Sx [Sy [Ax [cs [L [Nd [Fc [_ V]]]]]]]]].
  specialize (Fc (kept_not_random _ K)).
  exists l1, cs, d, rest, g2, k2. split; [reflexivity|]. split; [exact L1|]. split; [exact O1|]. split; [congruence|]. split; [|split; [|split; [|split]]].
  - intros i j Nij p q Hp Hq. assert (Hi : (i < length l1)%nat) by (apply nth_error_Some; congruence). assert (Hj : (j < length l1)%nat) by (apply nth_error_Some; congruence).
    rewrite L1 in Hi, Hj. exact (P1 i j Hi Hj (fun E => Nij (eq_sym E)) p q Hp Hq).
  - intros i c Hc. destruct (Forall2_nth _ _ _ _ _ Fc Hc) as [e [He [Cx Cy]]]. exists (e_ix e, e_iy e). split; [|split; assumption].
    rewrite <- S2. exact (map_nth_error (fun e => (e_ix e, e_iy e)) i _ He).
  - intros i j Hi Hj ux uy Ux Uy. rewrite (V i j 0 Hi Hj (zeros_entry _ _ i j Hi Hj) ux uy) by (intros _; rewrite Lx; auto). rewrite Rplus_0_l. f_equal. apply field_shape, S1.
  - exact Rest.
  - rewrite K1, K2, K3, K4, K5, K6. cbn. repeat (split; [solve [reflexivity|assumption]|]). intro E. apply Ax. left. destruct (g_eddies g), (place_eddies _ l1); cbn in Len; congruence.
Qed.
(** The separation of the positions is that of the centres, once the axes are those of the field. *)
Lemma spread_of_locs lo hi n lo' hi' n' m X Y a b locs cs : (X + m <= n)%nat -> (Y + m <= n')%nat -> on_grid X Y locs ->
  (forall i j, i <> j -> pair_ok (fun i => nth i (linspace lo hi n) 0) (fun i => nth i (linspace lo' hi' n') 0) a b 5 locs i j) ->
  (forall i c, nth_error cs i = Some c -> exists p, nth_error locs i = Some p /\ nth_error (linspace lo hi n) (fst p + m) = Some (fst c) /\ nth_error (linspace lo' hi' n') (snd p + m) = Some (snd c)) ->
  spread 5 a b cs.
Proof.
  intros HX HY G P C i j c c' Nij Hc Hc'. destruct (C _ _ Hc) as [p [Hp [Cx Cy]]]. destruct (C _ _ Hc') as [q [Hq [Dx Dy]]]. specialize (P i j Nij p q Hp Hq).
  destruct (G p (nth_error_In _ _ Hp)) as [Gx Gy]. destruct (G q (nth_error_In _ _ Hq)) as [Hx Hy]. cbn zeta.
  assert (Ux : fst c - fst c' = nth (fst p) (linspace lo hi n) 0 - nth (fst q) (linspace lo hi n) 0) by (apply (linspace_shift lo hi n m); [lia|lia|assumption..]).
  assert (Uy : snd c - snd c' = nth (snd p) (linspace lo' hi' n') 0 - nth (snd q) (linspace lo' hi' n') 0) by (apply (linspace_shift lo' hi' n' m); [lia|lia|assumption..]).
  rewrite Ux, Uy. rewrite dist_distance in P. unfold distance_to in P. destruct P as [O|O]; [right|left]; exact O.
Qed.
Lemma later_fields draw fuel margin x y N : forall g k data g', kept_apart (g_opt g) = true -> fair draw -> (0 < g_xlen g)%nat -> (0 < g_ylen g)%nat -> on_grid (g_xlen g) (g_ylen g) (map (fun e => (e_ix e, e_iy e)) (g_eddies g)) ->
  g_eddies g <> [] -> g_x g = x -> g_y g = y -> stretched x (g_xlen g + 2 * margin) = Ok x -> stretched y (g_ylen g + 2 * margin) = Ok y ->
  length x = (g_xlen g + 2 * margin)%nat -> length y = (g_ylen g + 2 * margin)%nat ->
  assemble_from draw fuel N margin g k = Ok (data, g') ->
  Forall (fun d => exists cs, length cs = length (g_eddies g) /\ shows (g_xlen g + 2 * margin) (g_ylen g + 2 * margin) x y (g_eddies g) cs d /\ spread 5 (g_a g) (g_b g) cs) data.
Proof.
  induction N as [|N IH]; intros g k data g' K F X Y G Ne Hx Hy Fx Fy Lx Ly H; [cbn in H; injection H as <- <-; constructor|].
  destruct (one_step draw fuel N margin x y g k data g' K F X Y G) as [locs [cs [d [rest [g2 [k2 [-> [L1 [O1 [Lc [P [C [V [R [E1 [E2 [E3 [E4 [E5 [E6 [E7 E8]]]]]]]]]]]]]]]]]]]]]; try assumption; [congruence|congruence|].
  destruct (E8 Ne) as [Gx Gy]. assert (Len : length (g_eddies g2) = length (g_eddies g)) by (rewrite <- (map_length shape), E6, map_length; reflexivity).
  constructor.
  - exists cs. split; [exact Lc|]. split; [apply is_field_shows; assumption|]. destruct (stretched_linspace _ _ _ Fx) as [lo [hi El]]. destruct (stretched_linspace _ _ _ Fy) as [lo' [hi' El']].
    rewrite Hx, Hy in P. rewrite El, El' in P, C. apply (spread_of_locs lo hi (g_xlen g + 2 * margin) lo' hi' (g_ylen g + 2 * margin) margin (g_xlen g) (g_ylen g) _ _ locs); [lia|lia|assumption..].
  - apply IH in R; rewrite ?E1, ?E2, ?E3, ?E7; try assumption; [|destruct (g_eddies g2), (g_eddies g); cbn in Len; congruence].
    eapply Forall_impl; [|exact R]. cbn beta. rewrite E1, E2, E4, E5. intros d' [cs' [Lc' [Sh Sp]]]. exists cs'. split; [congruence|]. split; [|exact Sp].
    intros i j r c Hi Hj Hc E. destruct (Sh i j r c Hi Hj Hc E) as [u [v [Hu [Hv He]]]]. exists u, v. split; [exact Hu|]. split; [exact Hv|]. rewrite He. f_equal. apply field_shape, E6.
Qed.

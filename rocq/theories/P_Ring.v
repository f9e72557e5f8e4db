(** C122, C123, C124: contours listed in another order, from another vertex, in the other direction *)
From Coq Require Import Reals Lra Lia Psatz Permutation List.
From Verif Require Import M_Base M_Gauss M_Ellipse S_Ellipse L_Ellipse3 L_Ellipse4 M_Frechet S_Frechet L_Frechet L_Frechet2 L_Frechet3 P_Ellipse P_Frechet S_Ring L_Ring.
Import ListNotations.
Open Scope R_scope.

(** *** C122 *)
Theorem C122_order_of_the_vertices : forall solve c c', Permutation c c' -> fit_ellipse solve c = fit_ellipse solve c'.
Proof. exact fit_perm. Qed.
Print Assumptions C122_order_of_the_vertices.
Theorem C122_direction : forall solve c, fit_ellipse solve (rev c) = fit_ellipse solve c.
Proof. intros solve c. apply fit_perm. symmetry. apply Permutation_rev. Qed.
Print Assumptions C122_direction.

(** *** C123 *)
(** The outline of a square, with the middles of its sides, started at the middle of its right side and at the middle of its upper side *)
Definition square_right : list (R * R) := [(1, 0); (1, 1); (0, 1); (-1, 1); (-1, 0); (-1, -1); (0, -1); (1, -1); (1, 0)].
Definition square_top : list (R * R) := [(0, 1); (-1, 1); (-1, 0); (-1, -1); (0, -1); (1, -1); (1, 0); (1, 1); (0, 1)].
Lemma square_later : started_later square_right square_top.
Proof.
  apply (later_more _ [(1, 1); (0, 1); (-1, 1); (-1, 0); (-1, -1); (0, -1); (1, -1); (1, 0); (1, 1)]); [apply (later_one (1, 0) (1, 1) [(0, 1); (-1, 1); (-1, 0); (-1, -1); (0, -1); (1, -1)])|].
  apply (later_one (1, 1) (0, 1) [(-1, 1); (-1, 0); (-1, -1); (0, -1); (1, -1); (1, 0)]).
Qed.
Ltac five := unfold solution, normal_matrix, column_sums, columns; unfold Rsum; cbn [map length dot fold_right fst snd]; split; [reflexivity|]; repeat (apply f_equal2; [lra|]); reflexivity.
Definition right_points : list (R * R) := map (fun p => (fst p - 1 / 9, snd p - 0)) square_right.
Definition top_points : list (R * R) := map (fun p => (fst p - 0, snd p - 1 / 9)) square_top.
Lemma right_mean : mean_of (map fst square_right) = 1 / 9 /\ mean_of (map snd square_right) = 0.
Proof. unfold square_right, mean_of. cbn [map fst snd length]. rewrite !Rsum_cons, Rsum_nil. cbn [INR]. split; field. Qed.
Lemma top_mean : mean_of (map fst square_top) = 0 /\ mean_of (map snd square_top) = 1 / 9.
Proof. unfold square_top, mean_of. cbn [map fst snd length]. rewrite !Rsum_cons, Rsum_nil. cbn [INR]. split; field. Qed.
Lemma right_centred : centred square_right = right_points.
Proof. unfold centred. destruct right_mean as [-> ->]. reflexivity. Qed.
Lemma top_centred : centred square_top = top_points.
Proof. unfold centred. destruct top_mean as [-> ->]. reflexivity. Qed.
Lemma right_solution : solution (normal_matrix right_points) (column_sums right_points) [4050 / 5863; 0; 12933 / 23452; 333 / 1804; 0].
Proof. unfold right_points, square_right. five. Qed.
Lemma top_solution : solution (normal_matrix top_points) (column_sums top_points) [12933 / 23452; 0; 4050 / 5863; 0; 333 / 1804].
Proof. unfold top_points, square_top. five. Qed.
Theorem C123_starting_vertex_refuted : started_later square_right square_top /\ forall solve, exact_solver solve -> forall u v, fit_ellipse solve square_right = Ok u -> fit_ellipse solve square_top = Ok v ->
  exists f g, u = Some f /\ v = Some g /\ f_theta f = Some (PI / 2) /\ f_theta g = Some 0.
Proof.
  split; [exact square_later|]. intros solve X u v Hu Hv. unfold fit_ellipse in Hu, Hv. rewrite right_centred in Hu. rewrite top_centred in Hv.
  destruct (solve (normal_matrix right_points) (column_sums right_points)) as [x|] eqn:Ex; [|discriminate]. destruct (solve (normal_matrix top_points) (column_sums top_points)) as [y|] eqn:Ey; [|discriminate].
  rewrite <- (proj2 (X _ _ _ Ex) _ right_solution) in Hu. rewrite <- (proj2 (X _ _ _ Ey) _ top_solution) in Hv. injection Hu as <-. injection Hv as <-.
  destruct (fit_from_pos_some (4050 / 5863) 0 (12933 / 23452) (333 / 1804) 0 (mean_of (map fst square_right)) (mean_of (map snd square_right)) 9) as (f & Ef & Tf); [lra|lra|lra|].
  destruct (fit_from_pos_some (12933 / 23452) 0 (4050 / 5863) 0 (333 / 1804) (mean_of (map fst square_top)) (mean_of (map snd square_top)) 9) as (g & Eg & Tg); [lra|lra|lra|].
  exists f, g. split; [exact Ef|]. split; [exact Eg|]. rewrite Tf, Tg. unfold angle_x_axis. destruct (Req_EM_T 0 0) as [_|N]; [|contradiction].
  destruct (Rlt_dec (4050 / 5863) (12933 / 23452)) as [L|_]; [lra|]. destruct (Rlt_dec (12933 / 23452) (4050 / 5863)) as [_|L]; [|lra]. split; reflexivity.
Qed.
Print Assumptions C123_starting_vertex_refuted.
(** Such a solver exists *)
Lemma both_general : in_general_position right_points /\ in_general_position top_points.
Proof.
  split; intros A B C D E H.
  - pose proof (H (1 - 1 / 9, 0 - 0) ltac:(left; reflexivity)) as H1. pose proof (H (1 - 1 / 9, 1 - 0) ltac:(right; left; reflexivity)) as H2. pose proof (H (0 - 1 / 9, 1 - 0) ltac:(do 2 right; left; reflexivity)) as H3.
    pose proof (H (-1 - 1 / 9, 1 - 0) ltac:(do 3 right; left; reflexivity)) as H4. pose proof (H (-1 - 1 / 9, 0 - 0) ltac:(do 4 right; left; reflexivity)) as H5. pose proof (H (-1 - 1 / 9, -1 - 0) ltac:(do 5 right; left; reflexivity)) as H6.
    unfold ev in *. cbn [fst snd] in *. repeat split; lra.
  - pose proof (H (0 - 0, 1 - 1 / 9) ltac:(left; reflexivity)) as H1. pose proof (H (-1 - 0, 1 - 1 / 9) ltac:(right; left; reflexivity)) as H2. pose proof (H (-1 - 0, 0 - 1 / 9) ltac:(do 2 right; left; reflexivity)) as H3.
    pose proof (H (-1 - 0, -1 - 1 / 9) ltac:(do 3 right; left; reflexivity)) as H4. pose proof (H (0 - 0, -1 - 1 / 9) ltac:(do 4 right; left; reflexivity)) as H5. pose proof (H (1 - 0, -1 - 1 / 9) ltac:(do 5 right; left; reflexivity)) as H6.
    unfold ev in *. cbn [fst snd] in *. repeat split; lra.
Qed.
Example C123_case : exists solve, exact_solver solve /\ (exists u, fit_ellipse solve square_right = Ok u) /\ exists v, fit_ellipse solve square_top = Ok v.
Proof.
  set (x := [4050 / 5863; 0; 12933 / 23452; 333 / 1804; 0]). set (y := [12933 / 23452; 0; 4050 / 5863; 0; 333 / 1804]). set (o := one_system (normal_matrix right_points) (column_sums right_points) x). set (o' := one_system (normal_matrix top_points) (column_sums top_points) y).
  assert (X : exact_solver o) by (apply one_system_exact; [exact right_solution|intros z Hz; exact (solution_unique _ _ _ (proj1 both_general) right_solution Hz)]).
  assert (X' : exact_solver o') by (apply one_system_exact; [exact top_solution|intros z Hz; exact (solution_unique _ _ _ (proj2 both_general) top_solution Hz)]).
  exists (fun m s => match o m s with Some w => Some w | None => o' m s end). split; [|split].
  - intros m s w H. destruct (o m s) as [w'|] eqn:E; [injection H as <-; exact (X _ _ _ E)|exact (X' _ _ _ H)].
  - eexists. unfold fit_ellipse. rewrite right_centred. unfold o. rewrite one_system_self. reflexivity.
  - destruct (o (normal_matrix top_points) (column_sums top_points)) as [w|] eqn:E.
    + destruct (X _ _ _ E) as [[L _] _]. destruct w as [|a [|b [|c [|d [|e [|? ?]]]]]]; try discriminate L. eexists. unfold fit_ellipse. rewrite top_centred, E. reflexivity.
    + eexists. unfold fit_ellipse. rewrite top_centred, E. unfold o'. rewrite one_system_self. reflexivity.
Qed.
(** For contours on an ellipse the starting vertex has no effect on the axes *)
Lemma later_in c c' : started_later c c' -> forall p, In p c <-> In p c'.
Proof. intro H. induction H as [a b l|c c' c'' _ IH1 _ IH2]; intro p; [cbn; rewrite !in_app_iff; cbn; tauto|rewrite IH1; apply IH2]. Qed.
Theorem C123_contours_on_an_ellipse : forall solve c c' h k p q t u v, started_later c c' -> exact_solver solve -> 0 < p -> 0 < q -> Forall (on_ellipse h k p q t) c ->
  (coef_xy p q t = 0 \/ (1 / 1000 < Rabs (coef_xy p q t / coef_xx p q t) /\ 1 / 1000 < Rabs (coef_xy p q t / coef_yy p q t))) -> fit_ellipse solve c = Ok u -> fit_ellipse solve c' = Ok v ->
  exists f g, u = Some f /\ v = Some g /\ f_major f = f_major g /\ f_minor f = f_minor g.
Proof.
  intros solve c c' h k p q t u v L X Hp Hq On T Hu Hv. assert (On' : Forall (on_ellipse h k p q t) c') by (rewrite Forall_forall in *; intros z Hz; apply On, (later_in _ _ L), Hz).
  destruct (C41_exact_ellipse_recovered solve c h k p q t u X Hp Hq On T Hu) as (f & -> & A & B & _). destruct (C41_exact_ellipse_recovered solve c' h k p q t v X Hp Hq On' T Hv) as (g & -> & A' & B' & _).
  exists f, g. repeat split; congruence.
Qed.
Print Assumptions C123_contours_on_an_ellipse.

(** *** C124 *)
Lemma PI_small : PI < 16 / 5.
Proof.
  destruct (Rlt_le_dec PI (16 / 5)) as [H|H]; [exact H|exfalso]. pose proof (cos_bound (8 / 5) 0 ltac:(lra) ltac:(lra)) as [_ B]. pose proof (cos_ge_0 (8 / 5) ltac:(lra) ltac:(lra)) as C.
  unfold cos_approx, cos_term in B. cbn in B. lra.
Qed.
Lemma near_similarity frames P Q s d L : compute_similarity frames P Q = Ok s -> frdist frames P Q = Ok d -> 0 < L -> arc_length P = L -> arc_length Q = L -> Rabs (s - Rmax (1 - sqrt 2 * d / L) 0) <= / 20000.
Proof.
  intros H E HL LP LQ. pose proof (C36_value frames P Q s d H E ltac:(lra) ltac:(lra)) as V. rewrite LP, LQ, sqrt_square in V by lra. exact V.
Qed.
Lemma below frames P Q s d L x : compute_similarity frames P Q = Ok s -> frdist frames P Q = Ok d -> 0 < L -> arc_length P = L -> arc_length Q = L -> x * L <= sqrt 2 * d -> x <= 1 -> s <= 1 - x + / 20000.
Proof.
  intros H E HL LP LQ B B1. pose proof (near_similarity frames P Q s d L H E HL LP LQ) as V. apply Raux.Rabs_le_inv in V.
  assert (x <= sqrt 2 * d / L) by (apply Rmult_le_reg_r with L; [exact HL|]; unfold Rdiv; rewrite Rmult_assoc, Rinv_l by lra; lra). assert (M : Rmax (1 - sqrt 2 * d / L) 0 <= 1 - x) by (apply Rmax_lub; lra). lra.
Qed.
Lemma ring_short n : (2 <= n <= 299)%nat -> forall f g : nat -> point, not_thinned (map f (seq 0 (S n))) (map g (seq 0 (S n))) /\ map f (seq 0 (S n)) <> [] /\ map g (seq 0 (S n)) <> [] /\
  (length (map f (seq 0 (S n))) + length (map g (seq 0 (S n))) - 1 <= Z.to_nat 1000)%nat.
Proof. intros H f g. rewrite !map_length, seq_length. split; [left; rewrite map_length, seq_length; lia|]. split; [discriminate|]. split; [discriminate|lia]. Qed.
Lemma ring_defined n : (2 <= n <= 299)%nat -> forall f g : nat -> point, exists d s, frdist (Z.to_nat 1000) (map f (seq 0 (S n))) (map g (seq 0 (S n))) = Ok d /\
  is_frechet (map f (seq 0 (S n))) (map g (seq 0 (S n))) d /\ compute_similarity (Z.to_nat 1000) (map f (seq 0 (S n))) (map g (seq 0 (S n))) = Ok s.
Proof.
  intros H f g. destruct (ring_short n H f g) as (N & A & B & L). destruct (C32_discrete_frechet_distance _ _ _ A B N L) as (d & E & F). exists d. eexists. split; [exact E|]. split; [exact F|]. unfold compute_similarity. rewrite E. reflexivity.
Qed.
Lemma sqrt2 : sqrt 2 * sqrt 2 = 2. Proof. apply sqrt_sqrt. lra. Qed.
Lemma cos_quarter n : (4 <= n)%nat -> sqrt 2 / 2 <= cos (PI / INR n).
Proof.
  intro H. pose proof PI_RGT_0. apply le_INR in H. change (INR 4) with (2 + 1 + 1) in H. assert (A : PI / INR n <= PI / 4) by (unfold Rdiv; apply Rmult_le_compat_l; [lra|]; apply Rinv_le_contravar; lra).
  assert (B : 0 < PI / INR n) by (apply Rdiv_lt_0_compat; lra). assert (C : cos (PI / 4) = sqrt 2 / 2) by (rewrite cos_PI4; pose proof sqrt2; assert (0 < sqrt 2) by (apply sqrt_lt_R0; lra); apply Rmult_eq_reg_r with (sqrt 2); [|lra]; field_simplify; [nra|lra]).
  rewrite <- C. apply cos_decr_1; lra.
Qed.
(** The polygon of an exact circle: listed anticlockwise from the x axis it is its own fitted ellipse, with similarity 1; listed clockwise, from any of its vertices, the fitted ellipse
    is the same and the similarity is below 0.7 *)
Theorem C124_direction_refuted : forall solve n r h k j u v, exact_solver solve -> (4 <= n <= 299)%nat -> 0 < r -> (j < n)%nat ->
  fit_ellipse solve (anticlockwise n r h k 0) = Ok u -> fit_ellipse solve (clockwise n r h k j) = Ok v ->
  exists f g s, u = Some f /\ v = Some g /\ f_points f = f_points g /\ compute_similarity (Z.to_nat 1000) (anticlockwise n r h k 0) (f_points f) = Ok 1 /\
    compute_similarity (Z.to_nat 1000) (clockwise n r h k j) (f_points g) = Ok s /\ s < 7 / 10.
Proof.
  intros solve n r h k j u v X Hn Hr Hj Hu Hv.
  assert (On : forall g : nat -> R, Forall (on_ellipse h k r r 0) (map (fun i => on_circle r h k (g i)) (seq 0 (S n)))) by (intro g; apply Forall_forall; intros z Hz; apply in_map_iff in Hz as (i & <- & _); apply circle_on, Hr).
  destruct (circle_fit solve _ h k r u X Hr (On (up n 0)) Hu) as (f & -> & Pf & _). destruct (circle_fit solve _ h k r v X Hr (On (down n j)) Hv) as (g & -> & Pg & _).
  rewrite map_length, seq_length, linspace_up, map_map in Pf, Pg by lia. change (map (fun x => on_circle r h k (up n 0 x)) (seq 0 (S n))) with (anticlockwise n r h k 0) in Pf, Pg.
  destruct (ring_defined n ltac:(lia) (fun i => on_circle r h k (down n j i)) (fun i => on_circle r h k (up n 0 i))) as (d & s & Ed & Fd & Es). destruct (ring_defined n ltac:(lia) (fun i => on_circle r h k (up n 0 i)) (fun i => on_circle r h k (up n 0 i))) as (_ & s1 & _ & _ & Es1).
  assert (N2 : (2 <= n)%nat) by lia. pose proof (step_sin_pos n N2) as SP. pose proof (Nn n N2) as NN. assert (NS : 0 < INR n * sin (PI / INR n)) by (apply Rmult_lt_0_compat; assumption).
  assert (LP : 0 < 2 * r * (INR n * sin (PI / INR n))) by (apply Rmult_lt_0_compat; lra).
  exists f, g, s. split; [reflexivity|]. split; [reflexivity|]. split; [congruence|]. split.
  { rewrite Pf. assert (One : s1 = 1); [|rewrite <- One; exact Es1]. apply (C36_curve_with_itself (Z.to_nat 1000) (anticlockwise n r h k 0) s1 Es1). rewrite circle_arc_up; assumption. }
  split; [rewrite Pg; exact Es|].
  pose proof (clockwise_far (on_circle r h k) n N2 (2 * r) d j ltac:(lia) ltac:(lra) (fun a b => Req_le _ _ (eq_sym (circle_chord r h k a b Hr))) Fd) as Far.
  pose proof (below _ _ _ s d _ (5 / 16) Es Ed LP (circle_arc_down n r h k j N2 Hr) (circle_arc_up n r h k 0 N2 Hr)) as Bl. pose proof (cos_quarter n ltac:(lia)) as CQ. pose proof (n_sin n N2) as NP. pose proof PI_small as PS. pose proof sqrt2 as S2.
  assert (S0 : 0 < sqrt 2) by (apply sqrt_lt_R0; lra).
  assert (Q : 5 / 16 * (2 * r * (INR n * sin (PI / INR n))) <= sqrt 2 * d).
  { apply Rle_trans with (2 * r * 1); [|apply Rle_trans with (sqrt 2 * (2 * r * (sqrt 2 / 2))); [nra|apply Rmult_le_compat_l; [lra|]; apply Rle_trans with (2 := Far); apply Rmult_le_compat_l; lra]].
    replace (5 / 16 * (2 * r * (INR n * sin (PI / INR n)))) with (2 * r * (5 / 16 * (INR n * sin (PI / INR n)))) by ring. apply Rmult_le_compat_l; lra. }
  specialize (Bl Q ltac:(lra)). lra.
Qed.
Print Assumptions C124_direction_refuted.

(** Anticlockwise from the vertex number j: the similarity falls with the distance of that vertex from the x axis *)
Theorem C124_starting_vertex : forall solve n r h k j u, exact_solver solve -> (2 <= n <= 299)%nat -> 0 < r -> (j < n)%nat -> fit_ellipse solve (anticlockwise n r h k j) = Ok u ->
  exists f s, u = Some f /\ compute_similarity (Z.to_nat 1000) (anticlockwise n r h k j) (f_points f) = Ok s /\
    Rabs (s - Rmax (1 - sqrt 2 * sin (PI * INR j / INR n) / (INR n * sin (PI / INR n))) 0) <= / 20000.
Proof.
  intros solve n r h k j u X Hn Hr Hj Hu.
  assert (On : Forall (on_ellipse h k r r 0) (anticlockwise n r h k j)) by (apply Forall_forall; intros z Hz; apply in_map_iff in Hz as (i & <- & _); apply circle_on, Hr).
  destruct (circle_fit solve _ h k r u X Hr On Hu) as (f & -> & Pf & _). unfold anticlockwise in Pf. rewrite map_length, seq_length, linspace_up, map_map in Pf by lia.
  destruct (ring_defined n Hn (fun i => on_circle r h k (up n j i)) (fun i => on_circle r h k (up n 0 i))) as (d & s & Ed & Fd & Es).
  assert (N2 : (2 <= n)%nat) by lia. pose proof (step_sin_pos n N2) as SP. pose proof (Nn n N2) as NN. assert (NS : 0 < INR n * sin (PI / INR n)) by (apply Rmult_lt_0_compat; assumption).
  assert (LP : 0 < 2 * r * (INR n * sin (PI / INR n))) by (apply Rmult_lt_0_compat; lra). pose proof PI_RGT_0 as PP.
  assert (Sj : 0 <= sin (PI * INR j / INR n)).
  { apply sin_ge_0; [apply Rmult_le_pos; [apply Rmult_le_pos; [lra|apply pos_INR]|left; apply Rinv_0_lt_compat, NN]|]. apply Rmult_le_reg_r with (INR n); [exact NN|]. unfold Rdiv. rewrite Rmult_assoc, Rinv_l, Rmult_1_r by lra. apply Rmult_le_compat_l; [lra|]. left. apply lt_INR, Hj. }
  assert (Ch : forall i, dist (on_circle r h k (up n j i)) (on_circle r h k (up n 0 i)) = 2 * r * sin (PI * INR j / INR n)).
  { intro i. rewrite circle_chord by exact Hr. replace ((up n j i - up n 0 i) / 2) with (PI * INR j / INR n) by (unfold up; cbn [INR]; field; lra). rewrite Rabs_pos_eq by exact Sj. reflexivity. }
  assert (D : d = 2 * r * sin (PI * INR j / INR n)).
  { apply Rle_antisym.
    - destruct Fd as [_ Min]. rewrite !map_length, seq_length in Min. apply (Min (map (fun i => (i, i)) (seq 0 (S n)))).
      + exists (map (fun i => (i, i)) (seq 1 n)). split; [reflexivity|]. split.
        * assert (G : forall m a, linked (a, a) (map (fun i => (i, i)) (seq (S a) m))) by (induction m as [|m IH]; intro a; [exact I|split; [right; right; reflexivity|apply IH]]). apply G.
        * rewrite seq_S, map_app. cbn [map Nat.add]. rewrite last_snoc. f_equal; lia.
      + assert (PD : forall i x, (i <= n)%nat -> pair_distance (map (fun i => on_circle r h k (up n j i)) (seq 0 (S n))) (map (fun i => on_circle r h k (up n 0 i)) (seq 0 (S n))) (i, i) x -> x = 2 * r * sin (PI * INR j / INR n)).
        { intros i x Hi (a & b & A & B & ->). cbn [fst snd] in A, B. pose proof (eq_trans (eq_sym A) (poly_nth (on_circle r h k) n N2 (up n j) i Hi)) as A'. pose proof (eq_trans (eq_sym B) (poly_nth (on_circle r h k) n N2 (up n 0) i Hi)) as B'. injection A' as ->. injection B' as ->. apply Ch. }
        split.
        * exists (0, 0)%nat. split; [left; reflexivity|]. exists (on_circle r h k (up n j 0)), (on_circle r h k (up n 0 0)). split; [reflexivity|]. split; [reflexivity|]. symmetry. apply Ch.
        * intros ij d' Hij Hd. apply in_map_iff in Hij as (i & <- & Hi). apply in_seq in Hi. right. apply (PD i); [lia|exact Hd].
    - rewrite <- (Ch O). apply (C34_first_points _ _ _ _ _ _ Ed); reflexivity. }
  exists f, s. split; [reflexivity|]. split; [rewrite Pf; exact Es|].
  pose proof (near_similarity _ _ _ s d _ Es Ed LP (circle_arc_up n r h k j N2 Hr) (circle_arc_up n r h k 0 N2 Hr)) as V.
  replace (sqrt 2 * d / (2 * r * (INR n * sin (PI / INR n)))) with (sqrt 2 * sin (PI * INR j / INR n) / (INR n * sin (PI / INR n))) in V; [exact V|]. rewrite D. field. repeat split; lra.
Qed.
Print Assumptions C124_starting_vertex.

(** Any fitted ellipse, compared with itself in the opposite direction *)
Theorem C124_reversed_ellipse : forall solve contour f n, fit_ellipse solve contour = Ok (Some f) -> length contour = S n -> (2 <= n <= 299)%nat -> 0 < f_minor f ->
  exists s, compute_similarity (Z.to_nat 1000) (rev (f_points f)) (f_points f) = Ok s /\ s <= 1 - sqrt 2 * (f_minor f / f_major f) * cos (PI / INR n) / PI + / 20000.
Proof.
  intros solve contour f n Hf Hl Hn Hm. unfold fit_ellipse in Hf. destruct (solve _ _) as [[|a [|b [|c [|d0 [|e [|? ?]]]]]]|]; try discriminate Hf. injection Hf as Hf. rewrite Hl in Hf.
  destruct (C40_points_parametrised _ _ _ _ _ _ _ _ _ Hf) as (h & k & phi & p & q & Hp & Hq & EM & Em & Pf). change (map (fun i => if Nat.eqb (S n) 1 then 0 else 2 * PI * INR i / INR (S n - 1)) (seq 0 (S n))) with (linspace_2pi (S n)) in Pf.
  rewrite linspace_up, map_map in Pf by lia. rewrite EM, Em in *. clear EM Em Hf.
  assert (P0 : 0 < p) by (apply Rlt_le_trans with (1 := Hm), Rmin_l). assert (Q0 : 0 < q) by (apply Rlt_le_trans with (1 := Hm), Rmin_r). assert (M0 : 0 < Rmax p q) by (apply Rlt_le_trans with (1 := P0), Rmax_l).
  set (E := ellipse_point h k p q phi) in *. assert (N2 : (2 <= n)%nat) by lia. pose proof (Nn n N2) as NN.
  assert (Rv : rev (f_points f) = map (fun i => E (down n n i)) (seq 0 (S n))).
  { rewrite Pf. assert (G : forall m, (m <= n)%nat -> rev (map (fun i => E (up n 0 i)) (seq 0 (S m))) = map (fun i => E (down n n i)) (seq (n - m) (S m))).
    { induction m as [|m IH]; intro Lm.
      - cbn. f_equal. f_equal. unfold up, down. replace (n - 0)%nat with n by lia. cbn [INR]. field. lra.
      - rewrite seq_S, map_app, rev_app_distr. cbn [map rev app Nat.add]. rewrite IH by lia. change (seq (n - S m) (S (S m))) with ((n - S m)%nat :: seq (S (n - S m)) (S m)). replace (S (n - S m)) with (n - m)%nat by lia. cbn [map]. f_equal. f_equal. unfold up, down.
        rewrite minus_INR by lia. change (INR 0) with 0. f_equal. f_equal. lra. }
    specialize (G n (le_n n)). replace (n - n)%nat with O in G by lia. exact G. }
  destruct (ring_defined n Hn (fun i => E (down n n i)) (fun i => E (up n 0 i))) as (d & s & Ed & Fd & Es). exists s. rewrite Rv, Pf. split; [exact Es|].
  pose proof (clockwise_far E n N2 (2 * Rmin p q) d n (le_n n) ltac:(lra) (fun a b => chord_ge h k p q phi a b P0 Q0) Fd) as Far.
  assert (LU : arc_length (map (fun i => E (down n n i)) (seq 0 (S n))) = arc_length (map (fun i => E (up n 0 i)) (seq 0 (S n)))) by (rewrite <- Rv, Pf; apply C37_direction).
  pose proof (arc_poly_le E n (up n 0) (2 * Rmax p q) (fun a b => chord_le h k p q phi a b P0 Q0) (step_up n N2 0) n O) as LE. set (L := arc_length (map (fun i => E (up n 0 i)) (seq 0 (S n)))) in *.
  pose proof (n_sin n N2) as NP. pose proof PI_RGT_0 as PP. assert (LB : L <= 2 * Rmax p q * PI) by (apply Rle_trans with (1 := LE); replace (INR n * (2 * Rmax p q * sin (PI / INR n))) with (2 * Rmax p q * (INR n * sin (PI / INR n))) by ring; apply Rmult_le_compat_l; lra).
  assert (LP : 0 < L).
  { assert (D1 : 0 < dist (E (up n 0 0)) (E (up n 0 1))) by (apply Rlt_le_trans with (2 := chord_ge h k p q phi _ _ P0 Q0); rewrite (step_up n N2 0 0); apply Rmult_lt_0_compat; [lra|apply step_sin_pos, N2]).
    unfold L. clear -D1 N2. destruct n as [|[|m]]; [lia|lia|]. cbn [seq map]. rewrite arc_cons. apply Rplus_lt_le_0_compat; [exact D1|apply arc_nonneg]. }
  pose proof (step_small n N2) as SS. assert (C0 : 0 <= cos (PI / INR n)) by (apply cos_ge_0; lra). assert (C1 : cos (PI / INR n) <= 1) by apply COS_bound. assert (S0 : 0 < sqrt 2) by (apply sqrt_lt_R0; lra). pose proof sqrt2 as S2.
  assert (Mm : Rmin p q <= Rmax p q) by (apply Rle_trans with p; [apply Rmin_l|apply Rmax_l]).
  set (x := sqrt 2 * (Rmin p q / Rmax p q) * cos (PI / INR n) / PI).
  assert (X0 : 0 <= x) by (unfold x; apply Rmult_le_pos; [apply Rmult_le_pos; [apply Rmult_le_pos; [lra|left; apply Rdiv_lt_0_compat; lra]|exact C0]|left; apply Rinv_0_lt_compat, PP]).
  apply (below _ _ _ s d L x Es Ed LP LU eq_refl).
  - apply Rle_trans with (x * (2 * Rmax p q * PI)); [apply Rmult_le_compat_l; assumption|]. replace (x * (2 * Rmax p q * PI)) with (sqrt 2 * (2 * Rmin p q * cos (PI / INR n))) by (unfold x; field; split; lra). apply Rmult_le_compat_l; lra.
  - assert (R1 : 0 <= Rmin p q / Rmax p q <= 1) by (split; [left; apply Rdiv_lt_0_compat; lra|apply Rmult_le_reg_r with (Rmax p q); [exact M0|]; unfold Rdiv; rewrite Rmult_assoc, Rinv_l by lra; lra]).
    assert (R2 : 0 <= Rmin p q / Rmax p q * cos (PI / INR n) <= 1) by nra. assert (PB : 2 < PI) by (pose proof PI2_1; lra). assert (SB : sqrt 2 < 2) by nra.
    apply Rmult_le_reg_r with PI; [exact PP|]. unfold x. replace (sqrt 2 * (Rmin p q / Rmax p q) * cos (PI / INR n) / PI * PI) with (sqrt 2 * (Rmin p q / Rmax p q * cos (PI / INR n))) by (field; split; lra). nra.
Qed.
Print Assumptions C124_reversed_ellipse.

(** *** The hypotheses are met: a hexagon of radius 7 around (-1, 0) *)
Lemma third_up i : up 6 0 i = PI / 3 * INR i.
Proof. unfold up. cbn [INR]. field. Qed.
Lemma hexagon : anticlockwise 6 7 (-1) 0 0 = let s := 7 * (sqrt 3 / 2) in [(6, 0); (5 / 2, s); (- (9 / 2), s); (-8, 0); (- (9 / 2), - s); (5 / 2, - s); (6, 0)].
Proof.
  rewrite anticlockwise_poly. cbn [seq map]. rewrite !third_up. unfold on_circle. cbn [INR].
  replace (PI / 3 * 0) with 0 by ring. replace (PI / 3 * 1) with (PI / 3) by ring. replace (PI / 3 * (1 + 1)) with (PI - PI / 3) by field. replace (PI / 3 * (1 + 1 + 1)) with PI by field.
  replace (PI / 3 * (1 + 1 + 1 + 1)) with (PI / 3 + PI) by field. replace (PI / 3 * (1 + 1 + 1 + 1 + 1)) with (2 * PI - PI / 3) by field. replace (PI / 3 * (1 + 1 + 1 + 1 + 1 + 1)) with (2 * PI) by field.
  rewrite !cos_minus, !sin_minus, neg_cos, neg_sin, cos_2PI, sin_2PI, cos_PI, sin_PI, cos_0, sin_0, cos_PI3, sin_PI3. repeat (apply f_equal2; [apply f_equal2; lra|]). reflexivity.
Qed.
Lemma hexagon_mean : mean_of (map fst (anticlockwise 6 7 (-1) 0 0)) = 0 /\ mean_of (map snd (anticlockwise 6 7 (-1) 0 0)) = 0.
Proof. rewrite hexagon. cbn zeta. unfold mean_of. cbn [map fst snd length]. rewrite !Rsum_cons, Rsum_nil. cbn [INR]. split; field. Qed.
Lemma hexagon_fit : exists solve u, exact_solver solve /\ fit_ellipse solve (anticlockwise 6 7 (-1) 0 0) = Ok u.
Proof.
  assert (Q : (7 * (sqrt 3 / 2)) ^ 2 = 147 / 4) by (pose proof (pow2_sqrt 3 ltac:(lra)); nra). assert (S0 : 0 < 7 * (sqrt 3 / 2)) by (assert (0 < sqrt 3) by (apply sqrt_lt_R0; lra); lra).
  destruct (fit_with (1 / 48) 0 (1 / 48) (2 / 48) 0 (anticlockwise 6 7 (-1) 0 0)) as (solve & X & E); [apply hexagon_mean|apply hexagon_mean| | |exists solve; eexists; split; [exact X|exact E]]; rewrite hexagon; cbn zeta; set (s := 7 * (sqrt 3 / 2)) in *.
  - intros A B C D E H. pose proof (H (6, 0) ltac:(left; reflexivity)) as H1. pose proof (H (5 / 2, s) ltac:(right; left; reflexivity)) as H2. pose proof (H (- (9 / 2), s) ltac:(do 2 right; left; reflexivity)) as H3.
    pose proof (H (-8, 0) ltac:(do 3 right; left; reflexivity)) as H4. pose proof (H (- (9 / 2), - s) ltac:(do 4 right; left; reflexivity)) as H5. pose proof (H (5 / 2, - s) ltac:(do 5 right; left; reflexivity)) as H6. clear H.
    unfold ev in *. cbn [fst snd] in *. replace ((- s) ^ 2) with (s ^ 2) in * by ring. rewrite Q in *.
    assert (A0 : A = 0) by lra. assert (D0 : D = 0) by lra. subst A D. assert (C0 : C = 0) by lra. subst C.
    assert (B0 : B * s = 0) by lra. assert (E0 : E * s = 0) by lra. apply Rmult_integral in B0 as [B0|B0]; [|lra]. apply Rmult_integral in E0 as [E0|E0]; [|lra]. repeat split; assumption.
  - intros p Hp. unfold ev. destruct Hp as [<-|[<-|[<-|[<-|[<-|[<-|[<-|[]]]]]]]]; cbn [fst snd]; replace ((- s) ^ 2) with (s ^ 2) by ring; rewrite ?Q; lra.
Qed.
Lemma clockwise_permutation n r h k : (1 <= n)%nat -> clockwise n r h k 0 = rev (anticlockwise n r h k 0).
Proof.
  intro H. assert (NN : 0 < INR n) by (apply lt_0_INR; lia). rewrite clockwise_poly, anticlockwise_poly.
  assert (G : forall m, (m <= n)%nat -> rev (map (fun i => on_circle r h k (up n 0 i)) (seq 0 (S m))) = map (fun i => on_circle r h k (down n 0 i)) (seq (n - m) (S m))).
  { assert (A : forall i, (i <= n)%nat -> on_circle r h k (up n 0 i) = on_circle r h k (down n 0 (n - i))).
    { intros i Hi. unfold on_circle. replace (up n 0 i) with (down n 0 (n - i) + 2 * PI) by (unfold up, down; rewrite minus_INR by lia; cbn [INR]; field; lra). rewrite cos_plus, sin_plus, cos_2PI, sin_2PI. f_equal; ring. }
    induction m as [|m IH]; intro Lm.
    - cbn. f_equal. replace (n - 0)%nat with (n - 0)%nat by lia. apply (A O). lia.
    - rewrite seq_S, map_app, rev_app_distr. cbn [map rev app Nat.add]. rewrite IH by lia. change (seq (n - S m) (S (S m))) with ((n - S m)%nat :: seq (S (n - S m)) (S m)). replace (S (n - S m)) with (n - m)%nat by lia. cbn [map]. f_equal. apply A. lia. }
  specialize (G n (le_n n)). replace (n - n)%nat with O in G by lia. symmetry. exact G.
Qed.
Example C124_case : exists solve u, exact_solver solve /\ (4 <= 6 <= 299)%nat /\ 0 < 7 /\ fit_ellipse solve (anticlockwise 6 7 (-1) 0 0) = Ok u /\ fit_ellipse solve (clockwise 6 7 (-1) 0 0) = Ok u /\
  exists f, u = Some f /\ length (anticlockwise 6 7 (-1) 0 0) = 7%nat /\ 0 < f_minor f.
Proof.
  destruct hexagon_fit as (solve & u & X & E). exists solve, u. split; [exact X|]. split; [lia|]. split; [lra|]. split; [exact E|]. split.
  - rewrite clockwise_permutation by lia. rewrite C122_direction. exact E.
  - assert (On : Forall (on_ellipse (-1) 0 7 7 0) (anticlockwise 6 7 (-1) 0 0)) by (apply Forall_forall; intros z Hz; apply in_map_iff in Hz as (i & <- & _); apply circle_on; lra).
    destruct (circle_fit solve _ (-1) 0 7 u X ltac:(lra) On E) as (f & -> & _ & _ & M). exists f. split; [reflexivity|]. split; [reflexivity|lra].
Qed.
(** C122 on the hexagon: the order of its vertices shuffled *)
Example C122_case : exists solve c c', Permutation c c' /\ c <> c' /\ c' <> rev c /\ exists f, fit_ellipse solve c = Ok (Some f).
Proof.
  destruct hexagon_fit as (solve & u & X & E). assert (On : Forall (on_ellipse (-1) 0 7 7 0) (anticlockwise 6 7 (-1) 0 0)) by (apply Forall_forall; intros z Hz; apply in_map_iff in Hz as (i & <- & _); apply circle_on; lra).
  destruct (circle_fit solve _ (-1) 0 7 u X ltac:(lra) On E) as (f & -> & _). exists solve, (anticlockwise 6 7 (-1) 0 0). rewrite hexagon in *. cbn zeta in *. set (s := 7 * (sqrt 3 / 2)) in *.
  exists [(5 / 2, s); (6, 0); (- (9 / 2), s); (-8, 0); (- (9 / 2), - s); (5 / 2, - s); (6, 0)]. split; [apply perm_swap|]. split; [intro H; apply (f_equal (hd (0, 0))) in H; cbn in H; injection H; intros; lra|].
  split; [intro H; apply (f_equal (hd (0, 0))) in H; cbn in H; injection H; intros; lra|]. exists f. exact E.
Qed.

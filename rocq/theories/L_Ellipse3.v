From Coq Require Import Reals Lra Lia Psatz.
From Verif Require Import M_Base M_Gauss M_Ellipse S_Ellipse L_Ellipse L_Ellipse2.
Open Scope R_scope.

(** *** normal equations *)
Definition ev (A B C D E : R) (p : R * R) : R := A * fst p ^ 2 + B * (fst p * snd p) + C * snd p ^ 2 + D * fst p + E * snd p.
Lemma Rsum_cons x l : Rsum (x :: l) = x + Rsum l. Proof. reflexivity. Qed.
Lemma Rsum_nil : Rsum [] = 0. Proof. reflexivity. Qed.
Lemma row_dot f A B C D E pts :
  dot (map (fun g => Rsum (map (fun p => f p * g p) pts)) columns) [A; B; C; D; E] = Rsum (map (fun p => f p * ev A B C D E p) pts).
Proof.
  induction pts as [|p l IH].
  - unfold columns. cbn [map dot]. rewrite Rsum_nil. ring.
  - unfold columns in *. cbn [map dot] in *. rewrite !Rsum_cons, <- IH. unfold ev. ring.
Qed.
Lemma Rsum_ext (f g : R * R -> R) pts : (forall p, In p pts -> f p = g p) -> Rsum (map f pts) = Rsum (map g pts).
Proof.
  intro H. induction pts as [|p l IH]; [reflexivity|]. cbn [map]. rewrite !Rsum_cons, (H p (or_introl eq_refl)), IH; [reflexivity|]. intros q Hq. apply H. right. exact Hq.
Qed.
Lemma normal_equations A B C D E pts : (forall p, In p pts -> ev A B C D E p = 1) -> solution (normal_matrix pts) (column_sums pts) [A; B; C; D; E].
Proof.
  intro H. split; [reflexivity|]. unfold normal_matrix, column_sums. rewrite map_map. apply map_ext. intro f. rewrite row_dot. apply Rsum_ext. intros p Hp. rewrite (H p Hp). ring.
Qed.
Lemma Rsum_nonneg (f : R * R -> R) pts : (forall p, In p pts -> 0 <= f p) -> 0 <= Rsum (map f pts).
Proof.
  intro H. induction pts as [|p l IH]; [cbn; lra|]. cbn [map]. rewrite Rsum_cons. pose proof (H p (or_introl eq_refl)). assert (0 <= Rsum (map f l)) by (apply IH; intros q Hq; apply H; right; exact Hq). lra.
Qed.
Lemma Rsum_zero_each (f : R * R -> R) pts : (forall p, In p pts -> 0 <= f p) -> Rsum (map f pts) = 0 -> forall p, In p pts -> f p = 0.
Proof.
  intro H. induction pts as [|q l IH]; [intros _ p []|]. cbn [map]. rewrite Rsum_cons. intros Z. pose proof (H q (or_introl eq_refl)) as Hq.
  assert (Hl : forall p, In p l -> 0 <= f p) by (intros p Hp; apply H; right; exact Hp). pose proof (Rsum_nonneg f l Hl) as N.
  intros p [<-|Hp]; [lra|apply IH; [exact Hl|lra|exact Hp]].
Qed.
Lemma Rsum_lin (f g : R * R -> R) a b pts : Rsum (map (fun p => a * f p + b * g p) pts) = a * Rsum (map f pts) + b * Rsum (map g pts).
Proof. induction pts as [|p l IH]; [cbn; ring|]. cbn [map]. rewrite !Rsum_cons, IH. ring. Qed.
(** A quadratic form of the normal matrix is a sum of squares. *)
Lemma columns_zero A B C D E pts :
  (forall f, In f columns -> Rsum (map (fun p => f p * ev A B C D E p) pts) = 0) -> forall p, In p pts -> ev A B C D E p = 0.
Proof.
  intro H. assert (S : Rsum (map (fun p => ev A B C D E p ^ 2) pts) = 0).
  { transitivity (A * Rsum (map (fun p => fst p ^ 2 * ev A B C D E p) pts) + B * Rsum (map (fun p => fst p * snd p * ev A B C D E p) pts) +
      C * Rsum (map (fun p => snd p ^ 2 * ev A B C D E p) pts) + D * Rsum (map (fun p => fst p * ev A B C D E p) pts) + E * Rsum (map (fun p => snd p * ev A B C D E p) pts)).
    - clear H. induction pts as [|p l IH]; [cbn; ring|]. cbn [map]. rewrite !Rsum_cons, IH. unfold ev at 1. ring_simplify. unfold ev. ring.
    - rewrite (H (fun p => fst p ^ 2)), (H (fun p => fst p * snd p)), (H (fun p => snd p ^ 2)), (H fst), (H snd); [ring|unfold columns; cbn; tauto ..]. }
  intros p Hp. apply sq_zero. exact (Rsum_zero_each _ pts (fun q _ => sqp _) S p Hp).
Qed.
(** Points that no two conics through the origin of coordinates share. *)
Definition in_general_position (pts : list (R * R)) : Prop :=
  forall A B C D E, (forall p, In p pts -> ev A B C D E p = 0) -> A = 0 /\ B = 0 /\ C = 0 /\ D = 0 /\ E = 0.
Lemma solution_unique pts x y : in_general_position pts -> solution (normal_matrix pts) (column_sums pts) x -> solution (normal_matrix pts) (column_sums pts) y -> y = x.
Proof.
  intros G [Lx Ex] [Ly Ey]. cbn in Lx, Ly.
  destruct x as [|a [|b [|c [|d [|e [|? ?]]]]]]; try discriminate. destruct y as [|a' [|b' [|c' [|d' [|e' [|? ?]]]]]]; try discriminate.
  assert (Z : forall p, In p pts -> ev (a' - a) (b' - b) (c' - c) (d' - d) (e' - e) p = 0).
  { apply columns_zero. intros f Hf. unfold normal_matrix, column_sums in Ex, Ey. rewrite map_map in Ex, Ey.
    assert (X1 : forall g, In g columns -> Rsum (map (fun p => g p * ev a b c d e p) pts) = Rsum (map g pts)).
    { intros g Hg. rewrite <- row_dot. exact (proj1 (map_ext_in_iff) Ex g Hg). }
    assert (X2 : forall g, In g columns -> Rsum (map (fun p => g p * ev a' b' c' d' e' p) pts) = Rsum (map g pts)).
    { intros g Hg. rewrite <- row_dot. exact (proj1 (map_ext_in_iff) Ey g Hg). }
    transitivity (1 * Rsum (map (fun p => f p * ev a' b' c' d' e' p) pts) + (-1) * Rsum (map (fun p => f p * ev a b c d e p) pts)); [|rewrite X1, X2 by exact Hf; ring].
    rewrite <- Rsum_lin. apply Rsum_ext. intros p _. unfold ev. ring. }
  destruct (G _ _ _ _ _ Z) as [? [? [? [? ?]]]]. f_equal; [lra|]. f_equal; [lra|]. f_equal; [lra|]. f_equal; [lra|]. f_equal. lra.
Qed.
(** The solver that knows one system. *)
Definition one_system (m : list (list R)) (s x : list R) (m' : list (list R)) (s' : list R) : option (list R) :=
  if list_eq_dec (list_eq_dec Req_EM_T) m' m then if list_eq_dec Req_EM_T s' s then Some x else None else None.
Lemma one_system_exact m s x : solution m s x -> (forall y, solution m s y -> y = x) -> exact_solver (one_system m s x).
Proof.
  intros S U m' s' x' H. unfold one_system in H. destruct (list_eq_dec _ m' m) as [->|]; [|discriminate]. destruct (list_eq_dec _ s' s) as [->|]; [|discriminate]. injection H as <-. split; assumption.
Qed.
Lemma one_system_self m s x : one_system m s x m s = Some x.
Proof. unfold one_system. destruct (list_eq_dec _ m m); [|contradiction]. destruct (list_eq_dec _ s s); [reflexivity|contradiction]. Qed.
Lemma solver_for A B C D E pts : in_general_position pts -> (forall p, In p pts -> ev A B C D E p = 1) ->
  exists solve, exact_solver solve /\ solve (normal_matrix pts) (column_sums pts) = Some [A; B; C; D; E].
Proof.
  intros G H. pose proof (normal_equations A B C D E pts H) as S. exists (one_system (normal_matrix pts) (column_sums pts) [A; B; C; D; E]). split; [|apply one_system_self].
  apply one_system_exact; [exact S|]. intros y Hy. exact (solution_unique pts _ y G S Hy).
Qed.

(** *** exact recovery *)
Lemma centred_sum (contour : list (R * R)) (f : R * R -> R) (c : R) : contour <> [] -> c = mean_of (map f contour) -> Rsum (map (fun p => f p - c) contour) = 0.
Proof.
  intros H ->. unfold mean_of. set (m := _ / _). assert (E : forall l : list (R * R), Rsum (map (fun p => f p - m) l) = Rsum (map f l) - INR (length l) * m).
  { induction l as [|q l IH]; [cbn; ring|]. cbn [map]. rewrite !Rsum_cons, IH. cbn [length]. rewrite S_INR. ring. }
  rewrite E. unfold m. rewrite map_length. field. apply not_0_INR. destruct contour; [contradiction|discriminate].
Qed.
Lemma all_zero_no_solver solve pts w : exact_solver solve -> solve (normal_matrix pts) (column_sums pts) = Some w -> exists p, In p pts /\ p <> (0, 0).
Proof.
  intros X H. destruct (X _ _ _ H) as [_ U].
  assert (D : (exists p, In p pts /\ p <> (0, 0)) \/ forall p, In p pts -> p = (0, 0)).
  { clear. induction pts as [|[x y] l IH]; [right; intros p []|]. destruct (Req_EM_T x 0) as [->|N]; [|left; exists (x, y); split; [left; reflexivity|intro E; apply N; congruence]].
    destruct (Req_EM_T y 0) as [->|N]; [|left; exists (0, y); split; [left; reflexivity|intro E; apply N; congruence]].
    destruct IH as [[p [Hp Np]]|A]; [left; exists p; split; [right; exact Hp|exact Np]|right; intros p [<-|Hp]; [reflexivity|exact (A p Hp)]]. }
  destruct D as [D|D]; [exact D|exfalso].
  assert (S : forall t, solution (normal_matrix pts) (column_sums pts) [t; 0; 0; 0; 0]).
  { intro t. split; [reflexivity|]. unfold normal_matrix, column_sums. rewrite map_map. apply map_ext_in. intros f Hf. rewrite row_dot. apply Rsum_ext. intros p Hp.
    assert (f p = 0) as ->; [|ring]. rewrite (D p Hp). unfold columns in Hf. destruct Hf as [<-|[<-|[<-|[<-|[<-|[]]]]]]; cbn [fst snd]; ring. }
  pose proof (U _ (S 0)) as E0. pose proof (U _ (S 1)) as E1. rewrite <- E0 in E1. injection E1 as E1. lra.
Qed.
Definition quad (A B C x y : R) : R := A * x ^ 2 + B * x * y + C * y ^ 2.
Lemma quad_nonneg A B C x y : 0 < A -> B ^ 2 < 4 * A * C -> 0 <= quad A B C x y.
Proof.
  intros Ha Hd. pose proof (quad_ge_lmin A B C x y) as Q. pose proof (lmin_pos A B C Ha Hd). unfold quad. assert (0 <= x ^ 2 + y ^ 2) by (pose proof (sqp x); pose proof (sqp y); lra).
  assert (0 <= lmin A B C * (x ^ 2 + y ^ 2)) by (apply Rmult_le_pos; lra). lra.
Qed.
Lemma quad_zero A B C x y : 0 < A -> B ^ 2 < 4 * A * C -> quad A B C x y = 0 -> (x, y) = (0, 0).
Proof.
  intros Ha Hd Z. pose proof (quad_ge_lmin A B C x y) as Q. pose proof (lmin_pos A B C Ha Hd). unfold quad in Z. rewrite Z in Q. pose proof (sqp x). pose proof (sqp y).
  assert (x ^ 2 + y ^ 2 = 0). { destruct (Req_dec (x ^ 2 + y ^ 2) 0) as [E|E]; [exact E|]. assert (0 < lmin A B C * (x ^ 2 + y ^ 2)) by (apply Rmult_lt_0_compat; lra). lra. }
  assert (x = 0) by (apply sq_zero; lra). assert (y = 0) by (apply sq_zero; lra). subst. reflexivity.
Qed.
Lemma exact_coefficients solve contour A B C h k w : exact_solver solve -> 0 < A -> B ^ 2 < 4 * A * C ->
  (forall z, In z contour -> quad A B C (fst z - h) (snd z - k) = 1) ->
  solve (normal_matrix (centred contour)) (column_sums (centred contour)) = Some w ->
  exists K, 0 < K /\ let mx := mean_of (map fst contour) in let my := mean_of (map snd contour) in
    K = 1 - quad A B C (mx - h) (my - k) /\
    w = [A / K; B / K; C / K; (2 * A * (mx - h) + B * (my - k)) / K; (B * (mx - h) + 2 * C * (my - k)) / K].
Proof.
  intros X Ha Hd H S. set (mx := mean_of (map fst contour)). set (my := mean_of (map snd contour)). cbn zeta. set (dx := mx - h). set (dy := my - k). set (K := 1 - quad A B C dx dy).
  destruct (all_zero_no_solver solve _ _ X S) as [p0 [Hp0 Np0]].
  assert (NE : contour <> []) by (intros ->; exact Hp0).
  set (D := 2 * A * dx + B * dy). set (E := B * dx + 2 * C * dy).
  assert (P : forall p, In p (centred contour) -> ev A B C D E p = K).
  { intros p Hp. unfold centred in Hp. apply in_map_iff in Hp as [z [<- Hz]]. fold mx my. specialize (H z Hz). unfold ev. cbn [fst snd]. unfold K. rewrite <- H. unfold quad, D, E, dx, dy. ring. }
  assert (SX : Rsum (map fst (centred contour)) = 0) by (unfold centred; rewrite map_map; cbn [fst]; exact (centred_sum contour fst mx NE eq_refl)).
  assert (SY : Rsum (map snd (centred contour)) = 0) by (unfold centred; rewrite map_map; cbn [snd]; exact (centred_sum contour snd my NE eq_refl)).
  assert (SQ : Rsum (map (fun p => quad A B C (fst p) (snd p)) (centred contour)) = Rsum (map (fun _ => K) (centred contour))).
  { transitivity (1 * Rsum (map (fun p => ev A B C D E p) (centred contour)) + (-1) * Rsum (map (fun p => D * fst p + E * snd p) (centred contour))).
    - rewrite <- Rsum_lin. apply Rsum_ext. intros p _. unfold ev, quad. ring.
    - rewrite Rsum_lin, SX, SY. rewrite (Rsum_ext (fun p => ev A B C D E p) (fun _ => K)) by exact P. ring. }
  assert (HK : 0 < K).
  { destruct (Rle_lt_dec K 0) as [N|N]; [exfalso|exact N]. assert (NN : Rsum (map (fun _ : R * R => K) (centred contour)) <= 0).
    { generalize (centred contour). intro l. induction l as [|q l IH]; [cbn; lra|]. cbn [map]. rewrite Rsum_cons. lra. }
    pose proof (Rsum_nonneg (fun p => quad A B C (fst p) (snd p)) (centred contour) (fun p _ => quad_nonneg A B C _ _ Ha Hd)) as G.
    assert (Z : Rsum (map (fun p => quad A B C (fst p) (snd p)) (centred contour)) = 0) by lra.
    pose proof (Rsum_zero_each _ _ (fun p _ => quad_nonneg A B C _ _ Ha Hd) Z p0 Hp0) as Q. apply Np0. destruct p0 as [x y]. exact (quad_zero A B C x y Ha Hd Q). }
  exists K. split; [exact HK|]. split; [reflexivity|]. destruct (X _ _ _ S) as [_ U]. symmetry. apply U. fold dx dy D E. apply normal_equations. intros p Hp.
  transitivity (ev A B C D E p / K); [unfold ev; field; lra|]. rewrite (P p Hp). field. lra.
Qed.

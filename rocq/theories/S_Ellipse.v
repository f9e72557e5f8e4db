(** Specification: conics, ellipses and linear systems. *)
From Coq Require Import Reals.
From Verif Require Import M_Base M_Gauss M_Ellipse.
Open Scope R_scope.

(** [x] solves the linear system with matrix [m] and right-hand side [s]. *)
Fixpoint dot (u v : list R) : R := match u, v with x :: u', y :: v' => x * y + dot u' v' | _, _ => 0 end.
Definition solution (m : list (list R)) (s x : list R) : Prop := length x = length m /\ map (fun r => dot r x) m = s.
(** An exact solver: returns a solution, and only when it is the only one. *)
Definition exact_solver (solve : list (list R) -> list R -> option (list R)) : Prop :=
  forall m s x, solve m s = Some x -> solution m s x /\ forall y, solution m s y -> y = x.

(** A point of the ellipse with centre (h, k), semi-axes p (along angle t) and q (across it). *)
Definition on_ellipse (h k p q t : R) (z : R * R) : Prop :=
  ((cos t * (fst z - h) + sin t * (snd z - k)) / p) ^ 2 + ((- sin t * (fst z - h) + cos t * (snd z - k)) / q) ^ 2 = 1.
(** Its parametric form, turned clockwise by phi: the point at parameter tau. *)
Definition ellipse_point (h k p q phi tau : R) : R * R :=
  (h + p * cos tau * cos phi + q * sin tau * sin phi, k - p * cos tau * sin phi + q * sin tau * cos phi).
(** Coefficients of x^2, xy and y^2 in its equation. *)
Definition coef_xx (p q t : R) : R := (cos t / p) ^ 2 + (sin t / q) ^ 2.
Definition coef_xy (p q t : R) : R := 2 * cos t * sin t * (1 / p ^ 2 - 1 / q ^ 2).
Definition coef_yy (p q t : R) : R := (sin t / p) ^ 2 + (cos t / q) ^ 2.

(** Points of the conic a x^2 + b x y + c y^2 + d x + e y = 1 relative to (mx, my). *)
Definition on_conic (a b c d e mx my : R) (z : R * R) : Prop :=
  a * (fst z - mx) ^ 2 + b * (fst z - mx) * (snd z - my) + c * (snd z - my) ^ 2 + d * (fst z - mx) + e * (snd z - my) = 1.
(** Its centre: where the gradient vanishes. *)
Definition conic_centre (a b c d e mx my h k : R) : Prop :=
  2 * a * (h - mx) + b * (k - my) + d = 0 /\ b * (h - mx) + 2 * c * (k - my) + e = 0.

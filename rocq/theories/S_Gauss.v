(** Specification vocabulary for the Gaussian surfaces. *)
From Coq Require Import Reals.
From Verif Require Import M_Base M_Gauss.
Open Scope R_scope.

(** The initial value is a number strictly between two numbers. *)
Definition inside (init : option R) (b : option R * option R) : Prop := exists v l u, init = Some v /\ b = (Some l, Some u) /\ l < v < u.
(** A rounding of the reals: monotone, exact on 0 and 1. *)
Definition rounding (rnd : R -> R) : Prop := (forall x y, x <= y -> rnd x <= rnd y) /\ rnd 0 = 0 /\ rnd 1 = 1.
(** v is the absolute difference of data and Gaussian at a point where the data are valid. *)
Definition misfit (data : list (option R)) (gauss : list R) (v : R) : Prop :=
  exists i d g, nth_error data i = Some (Some d) /\ nth_error gauss i = Some g /\ v = Rabs (d - g).
(** The entry in row i and column j of a matrix. *)
Definition entry {A} (m : list (list A)) (i j : nat) : option A := match nth_error m i with Some r => nth_error r j | None => None end.
(** Squared distance. *)
Definition r2 (x0 y0 x y : R) : R := (x - x0) ^ 2 + (y - y0) ^ 2.

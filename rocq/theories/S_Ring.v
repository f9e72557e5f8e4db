(** Specification: closed contours listed in other orders; circles as polygons. *)
From Coq Require Import Reals List.
Import ListNotations.
Local Open Scope R_scope.

(** The same closed contour, started at its next vertex: the first vertex is also the last one *)
Inductive started_later : list (R * R) -> list (R * R) -> Prop :=
  | later_one a b l : started_later (a :: b :: l ++ [a]) (b :: l ++ [a; b])
  | later_more c c' c'' : started_later c c' -> started_later c' c'' -> started_later c c''.

(** The point of a circle of radius r around (h, k) in the direction t, counted anticlockwise from the x axis *)
Definition on_circle (r h k t : R) : R * R := (h + r * cos t, k + r * sin t).
(** The closed polygon of n vertices on that circle, anticlockwise or clockwise, from the vertex number j on *)
Definition anticlockwise (n : nat) (r h k : R) (j : nat) : list (R * R) := map (fun i => on_circle r h k (2 * PI * (INR j + INR i) / INR n)) (seq 0 (S n)).
Definition clockwise (n : nat) (r h k : R) (j : nat) : list (R * R) := map (fun i => on_circle r h k (2 * PI * (INR j - INR i) / INR n)) (seq 0 (S n)).

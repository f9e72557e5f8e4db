(** Specification: eddies with a closed outline, what they enclose. *)
From Coq Require Import ZArith List Bool Permutation.
From Verif Require Import M_Base M_Tables M_Area M_Eddy M_Window M_Pipeline S_Cntr S_Levels S_Detect S_Pipeline S_Border S_Enclose.
Local Open Scope Z_scope.

(** The value at point p of a field *)
Definition value_at (f : grid num) (p : Z) : num := nth (Z.to_nat p) (List.concat f) NaN.
(** The outline of the eddy goes through these sides of the mesh, one after another, and closes *)
Definition follows (o : tracker) (f : grid num) (level : num) (e : eddy) (c : list (Z * Z)) : Prop :=
  is_curve (width f) (height f) (value_above f level) c /\ closed_curve c /\ outline e = map (position o f level) c.
(** Point p is not on the border, and no neighbour in its row or column has a greater value; no neighbour has a smaller value *)
Definition off_the_border (f : grid num) (p : Z) : Prop := S_Cntr.in_mesh (width f) (height f) p /\ ~ border_point (width f) (height f) p.
Definition no_higher_neighbour (f : grid num) (p : Z) : Prop := forall q, side (width f) (height f) (p, q) -> ~ above_level (value_at f q) (value_at f p).
Definition no_lower_neighbour (f : grid num) (p : Z) : Prop := forall q, side (width f) (height f) (p, q) -> ~ above_level (value_at f p) (value_at f q).
(** Every point of the mesh enclosed by c is enclosed by c'; no point is enclosed by both *)
Definition nested_in (f : grid num) (c c' : list (Z * Z)) : Prop := forall p, S_Cntr.in_mesh (width f) (height f) p -> encloses (width f) c p -> encloses (width f) c' p.
Definition disjoint_from (f : grid num) (c c' : list (Z * Z)) : Prop := forall p, S_Cntr.in_mesh (width f) (height f) p -> ~ (encloses (width f) c p /\ encloses (width f) c' p).
(** The mean of the four points of a cell compares in the same way with every level whatever the order in which they are added *)
Definition order_does_not_matter (o : tracker) (f : grid num) : Prop := forall cell v v' level, middle_value o f cell v -> middle_value o f cell v' -> ngt v level = ngt v' level.

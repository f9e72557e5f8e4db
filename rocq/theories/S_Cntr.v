(** What contour lines on a rectangular mesh are.  The mesh has [cols] columns and [rows] rows of points; point k is in column k mod cols and row k / cols.
    [above k] says that the value at point k is greater than the level.  Nothing here refers to the model of the tracer. *)
From Coq Require Import ZArith List Bool.
Import ListNotations.
Local Open Scope Z_scope.

Section Mesh.
Variables cols rows : Z.
Variable above : Z -> bool.
Definition col_of (k : Z) : Z := k mod cols.
Definition row_of (k : Z) : Z := k / cols.
Definition in_mesh (k : Z) : Prop := 0 <= k < cols * rows.

(** The side between two neighbouring points of the mesh *)
Definition side (e : Z * Z) : Prop :=
  let (p, q) := e in in_mesh p /\ in_mesh q /\
  ((row_of p = row_of q /\ Z.abs (col_of p - col_of q) = 1) \/ (col_of p = col_of q /\ Z.abs (row_of p - row_of q) = 1)).
(** The level passes between the two points *)
Definition crossed (e : Z * Z) : Prop := above (fst e) <> above (snd e).
(** The two sides are the same, whatever the order of the points *)
Definition same_side (e f : Z * Z) : Prop := f = e \/ f = (snd e, fst e).
(** A side on the edge of the mesh *)
Definition outer (e : Z * Z) : Prop :=
  let (p, q) := e in (row_of p = 0 /\ row_of q = 0) \/ (row_of p = rows - 1 /\ row_of q = rows - 1) \/ (col_of p = 0 /\ col_of q = 0) \/ (col_of p = cols - 1 /\ col_of q = cols - 1).

(** The cell with the points (i, j), (i + 1, j), (i, j + 1), (i + 1, j + 1) *)
Definition is_cell (c : Z * Z) : Prop := 0 <= fst c < cols - 1 /\ 0 <= snd c < rows - 1.
Definition corner (c : Z * Z) (a b : Z) : Z := (fst c + a) + (snd c + b) * cols.
Definition point_of_cell (c : Z * Z) (k : Z) : Prop := fst c <= col_of k <= fst c + 1 /\ snd c <= row_of k <= snd c + 1.
Definition side_of_cell (c : Z * Z) (e : Z * Z) : Prop := is_cell c /\ side e /\ point_of_cell c (fst e) /\ point_of_cell c (snd e).
(** All four sides of the cell are crossed: there are two ways to join them *)
Definition ambiguous (c : Z * Z) : Prop := above (corner c 0 0) = above (corner c 1 1) /\ above (corner c 1 0) = above (corner c 0 1) /\ above (corner c 0 0) <> above (corner c 1 0).

(** A curve is the list of the crossed sides it goes through *)
Definition next_in (c : list (Z * Z)) (e f : Z * Z) : Prop := exists l1 l2, c = l1 ++ e :: f :: l2.
Definition begins (c : list (Z * Z)) (e : Z * Z) : Prop := exists l, c = e :: l.
Definition finishes (c : list (Z * Z)) (e : Z * Z) : Prop := exists l, c = l ++ [e].
Definition closed_curve (c : list (Z * Z)) : Prop := exists e, begins c e /\ finishes c e.
Definition boundary_curve (c : list (Z * Z)) : Prop := exists e f, begins c e /\ finishes c f /\ outer e /\ outer f /\ ~ same_side e f.
Record is_curve (c : list (Z * Z)) : Prop := {
  cv_length : (2 <= length c)%nat;
  cv_sides : forall e, In e c -> side e /\ crossed e;
  cv_steps : forall e f, next_in c e f -> ~ same_side e f /\ exists q, side_of_cell q e /\ side_of_cell q f;
  cv_ends : closed_curve c \/ boundary_curve c }.
(** How often a curve goes through a side: the last point of a closed curve repeats the first one *)
Definition same_sideb (e f : Z * Z) : bool := ((fst e =? fst f) && (snd e =? snd f) || (fst e =? snd f) && (snd e =? fst f))%bool.
Definition repeats (c : list (Z * Z)) : bool := match c with [] => false | e :: l => let f := last l (-1, -1) in ((fst e =? fst f) && (snd e =? snd f))%bool end.
Definition visits (e : Z * Z) (c : list (Z * Z)) : nat := length (filter (same_sideb e) (if repeats c then removelast c else c)).
Definition total_visits (e : Z * Z) (cs : list (list (Z * Z))) : nat := fold_right (fun c n => (visits e c + n)%nat) O cs.
(** In an ambiguous cell, [t] says that the point in the middle is above: the curve cuts off a corner that is on the other side of the level *)
Definition cuts_off (t : Z * Z -> bool) (c : list (Z * Z)) : Prop :=
  forall e f q, next_in c e f -> side_of_cell q e -> side_of_cell q f -> ambiguous q -> exists p, (p = fst e \/ p = snd e) /\ (p = fst f \/ p = snd f) /\ above p = negb (t q).
End Mesh.

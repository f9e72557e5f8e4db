(** Specification: which side of a contour the higher values are on.  Points of the mesh are pairs (column, row); lengths are in half steps of the mesh, so that the middle of a
    side is a pair of integers. *)
From Coq Require Import ZArith List.
From Verif Require Import S_Cntr.
Local Open Scope Z_scope.

Section Turn.
Variable cols : Z.
Variable above : Z -> bool.
Definition place_of (p : Z) : Z * Z := (2 * col_of cols p, 2 * row_of cols p).
Definition middle (e : Z * Z) : Z * Z := (col_of cols (fst e) + col_of cols (snd e), row_of cols (fst e) + row_of cols (snd e)).
(** Positive: p is to the left of somebody going from u to v; negative: to the right *)
Definition leftness (u v p : Z * Z) : Z := (fst v - fst u) * (snd p - snd u) - (snd v - snd u) * (fst p - fst u).
Definition end_of (e f : Z * Z) (p : Z) : Prop := p = fst e \/ p = snd e \/ p = fst f \/ p = snd f.
(** Along the whole curve the ends above the level are to the left and the others to the right *)
Definition higher_left (c : list (Z * Z)) : Prop := forall e f p, next_in c e f -> end_of e f p ->
  (above p = true -> 0 < leftness (middle e) (middle f) (place_of p)) /\ (above p = false -> leftness (middle e) (middle f) (place_of p) < 0).
Definition higher_right (c : list (Z * Z)) : Prop := forall e f p, next_in c e f -> end_of e f p ->
  (above p = true -> leftness (middle e) (middle f) (place_of p) < 0) /\ (above p = false -> 0 < leftness (middle e) (middle f) (place_of p)).
End Turn.

(** *** In the plane *)
From Coq Require Import Reals.
From Verif Require Import M_Extract S_Lines.
Local Open Scope R_scope.
(** p is to the left, to the right, of somebody going from u to v (longitude to the right, latitude upwards) *)
Definition cross (u v p : R * R) : R := (fst v - fst u) * (snd p - snd u) - (snd v - snd u) * (fst p - fst u).
Definition to_the_left (u v p : R * R) : Prop := 0 < cross u v p.
Definition to_the_right (u v p : R * R) : Prop := cross u v p < 0.
Definition rising (n : Z) (f : Z -> R) : Prop := forall i j, (0 <= i)%Z -> (i < j)%Z -> (j < n)%Z -> f i < f j.
(** A grid with longitudes rising from column to column and latitudes rising from row to row *)
Definition with_rising_axes (x y z : mat R) : Prop :=
  exists xs ys, rising (m_cols R z) xs /\ rising (m_rows R z) ys /\
    forall k, in_mesh (m_cols R z) (m_rows R z) k -> m_at R x k = xs (col_of (m_cols R z) k) /\ m_at R y k = ys (row_of (m_cols R z) k).
Definition node (x y : mat R) (k : Z) : R * R := (m_at R x k, m_at R y k).
(** An outline goes directly from u to v *)
Definition goes (vs : list (R * R)) (u v : R * R) : Prop := exists l1 l2, vs = (l1 ++ u :: v :: l2)%list.

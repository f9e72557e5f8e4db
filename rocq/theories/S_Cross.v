(** Specification: points of a straight line, grids with axes, curves without repeated points. *)
From Coq Require Import ZArith Reals List.
From Verif Require Import M_Extract S_Cntr S_Border.
Import ListNotations.
Local Open Scope R_scope.

(** p lies on the straight line from u to v *)
Definition on_line (p u v : R * R) : Prop := exists s, 0 <= s <= 1 /\ p = (fst u + s * (fst v - fst u), snd u + s * (snd v - snd u)).
(** The coordinates f 0, .., f (n - 1) increase or decrease *)
Definition monotone_axis (n : Z) (f : Z -> R) : Prop :=
  (forall i j, (0 <= i)%Z -> (i < j)%Z -> (j < n)%Z -> f i < f j) \/ (forall i j, (0 <= i)%Z -> (i < j)%Z -> (j < n)%Z -> f j < f i).
(** A grid with a longitude for every column and a latitude for every row *)
Definition with_axes (x y z : mat R) : Prop :=
  exists xs ys, monotone_axis (m_cols R z) xs /\ monotone_axis (m_rows R z) ys /\
    forall k, in_mesh (m_cols R z) (m_rows R z) k -> m_at R x k = xs (col_of (m_cols R z) k) /\ m_at R y k = ys (row_of (m_cols R z) k).
(** No value of the field is equal to the level *)
Definition misses_the_level (z : mat R) (level : R) : Prop := forall k, in_mesh (m_cols R z) (m_rows R z) k -> m_at R z k <> level.
(** The points of an outline, the end of a closed one not counted again *)
Definition points_once (vs ws : list (R * R)) : Prop := (closed_outline vs /\ exists v, vs = ws ++ [v]) \/ (~ closed_outline vs /\ ws = vs).

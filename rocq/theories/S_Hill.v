(** Specification: points of a mesh that are connected on one side of a level. *)
From Coq Require Import ZArith List Bool Reals.
From Verif Require Import S_Cntr.
Local Open Scope Z_scope.

Section Mesh.
Variables cols rows : Z.
(** [above k]: the value at point k is greater than the level *)
Variable above : Z -> bool.
(** [known q b]: the middle of cell q is known to be above the level (b = true) or not to be (b = false) *)
Variable known : Z * Z -> bool -> Prop.
(** One can walk from p to q over points on one side of the level, each step going to a neighbour in the row or column, or across a cell whose other two points are on the other side
    and whose middle is on this side *)
Inductive connected : Z -> Z -> Prop :=
| Here p : connected p p
| Beside p q r : side cols rows (p, q) -> above p = above q -> connected q r -> connected p r
| Across k p q r : is_cell cols rows k -> ambiguous cols above k -> in_mesh cols rows p -> in_mesh cols rows q -> point_of_cell cols k p -> point_of_cell cols k q -> above p = above q -> known k (above p) -> connected q r -> connected p r.
End Mesh.
(** Without steps across cells *)
Definition beside_only (q : Z * Z) (b : bool) : Prop := False.

(** *** In the plane *)
From Verif Require Import M_Extract.
Local Open Scope R_scope.
Definition is_higher (v level : R) : bool := if Rlt_dec level v then true else false.
(** The mean of the four values of a cell *)
Definition mean_value (z : mat R) (q : Z * Z) : R :=
  (m_at R z (corner (m_cols R z) q 0 0) + m_at R z (corner (m_cols R z) q 1 0) + m_at R z (corner (m_cols R z) q 0 1) + m_at R z (corner (m_cols R z) q 1 1)) / 4.
(** p and q are connected on one side of the level; the middle of a cell has the mean of its four values *)
Definition joined_on_one_side (z : mat R) (level : R) (p q : Z) : Prop :=
  connected (m_cols R z) (m_rows R z) (fun k => is_higher (m_at R z k) level) (fun q b => is_higher (mean_value z q) level = b) p q.

(** Specification: which line segments the contours of a level consist of, as a set: nothing is said about the order in which they are drawn or their direction. *)
From Coq Require Import ZArith List Bool.
From Verif Require Import M_Extract S_Cntr.
Import ListNotations.
Local Open Scope Z_scope.

Section Mesh.
Variables cols rows : Z.
Variable above : Z -> bool.
(** [middle q]: the middle of cell q counts as above the level *)
Variable middle : Z * Z -> bool.
(** The level runs from side e to side f: both are crossed, in one cell, and when all four sides of the cell are crossed the segment cuts off a corner that is
    on the other side of the level than the middle. *)
Definition joined (e f : Z * Z) : Prop :=
  ~ same_side e f /\ crossed above e /\ crossed above f /\
  exists q, side_of_cell cols rows q e /\ side_of_cell cols rows q f /\
    (ambiguous cols above q -> exists p, (p = fst e \/ p = snd e) /\ (p = fst f \/ p = snd f) /\ above p = negb (middle q)).
(** The curves go directly from e to f or from f to e (whatever the order of the two points of each side). *)
Definition runs_between (curves : list (list (Z * Z))) (e f : Z * Z) : Prop :=
  exists c e' f', In c curves /\ same_side e e' /\ same_side f f' /\ (next_in c e' f' \/ next_in c f' e').
End Mesh.

(** A straight line is drawn from u to v, or from v to u. *)
Definition line {num} (arrays : list (item num)) (u v : num * num) : Prop :=
  exists vs l1 l2, In (Verts num vs) arrays /\ (vs = l1 ++ u :: v :: l2 \/ vs = l1 ++ v :: u :: l2).
Definition same_lines {num} (a b : list (item num)) : Prop := forall u v, line a u v <-> line b u v.

(** The same array with the rows in reverse order, with the columns in reverse order, with rows and columns exchanged *)
Definition upside_down {num} (m : mat num) : mat num :=
  mkMat num (m_rows num m) (m_cols num m) (fun k => m_at num m (k mod m_cols num m + (m_rows num m - 1 - k / m_cols num m) * m_cols num m)).
Definition mirrored {num} (m : mat num) : mat num :=
  mkMat num (m_rows num m) (m_cols num m) (fun k => m_at num m (m_cols num m - 1 - k mod m_cols num m + k / m_cols num m * m_cols num m)).
Definition transposed {num} (m : mat num) : mat num :=
  mkMat num (m_cols num m) (m_rows num m) (fun k => m_at num m (k / m_rows num m + k mod m_rows num m * m_cols num m)).

(** Arrays of real numbers with every value changed *)
From Coq Require Import Reals.
Definition changed_values (f : R -> R) (m : mat R) : mat R := mkMat R (m_rows R m) (m_cols R m) (fun k => f (m_at R m k)).
(** Vertices with both coordinates changed; the codes stay *)
Definition changed_item (f g : R -> R) (a : item R) : item R := match a with Verts _ l => Verts R (map (fun v => (f (fst v), g (snd v))) l) | Codes _ c => Codes R c end.

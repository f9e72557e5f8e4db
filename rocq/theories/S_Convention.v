(** Specification: the same longitudes counted from another meridian. *)
From Coq Require Import QArith List.
From Verif Require Import M_Base M_Window S_Window.
Local Open Scope Q_scope.

(** Longitudes d degrees larger, of the grid and of a vertex *)
Definition east (d : Q) (xs : list Q) : list Q := map (fun x => x + d) xs.
Definition vertex_east (d : Q) (v : Q * Q) : Q * Q := (fst v + d, snd v).
(** (i, j) is the one grid point that is nearest to the vertex *)
Definition only_nearest (X Y : grid Q) (v : Q * Q) (i j : nat) : Prop := nearest_of_all X Y v i j /\ forall i' j', nearest_of_all X Y v i' j' -> i' = i /\ j' = j.
(** The vertex lies between coordinates of the grid *)
Definition within_grid (xs ys : list Q) (v : Q * Q) : Prop := exists x0 x1 y0 y1, In x0 xs /\ In x1 xs /\ In y0 ys /\ In y1 ys /\ x0 <= fst v <= x1 /\ y0 <= snd v <= y1.

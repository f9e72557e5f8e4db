(** Specification: a grid around the globe that starts at another longitude. *)
From Coq Require Import ZArith Reals.
From Verif Require Import M_Extract S_Lines2.
Local Open Scope R_scope.

(** The column of the old grid that is column i of the grid starting d columns later *)
Definition old_column (cols d i : Z) : Z := (if i + d <? cols then i + d else i + d - cols)%Z.
(** The same values (or latitudes), starting d columns later; the first d columns come last *)
Definition starting_at (d : Z) (m : mat R) : mat R :=
  mkMat R (m_rows R m) (m_cols R m) (fun k => m_at R m (old_column (m_cols R m) d (k mod m_cols R m) + k / m_cols R m * m_cols R m)%Z).
(** The longitudes: 360 degrees more for the first d columns *)
Definition longitudes_starting_at (d : Z) (m : mat R) : mat R :=
  mkMat R (m_rows R m) (m_cols R m) (fun k => m_at R (starting_at d m) k + if (k mod m_cols R m + d <? m_cols R m)%Z then 0 else 360).
Definition turned_around (u : R * R) : R * R := (fst u + 360, snd u).
(** The cell between the last column and the first one, in row j *)
Definition cell_across (x y z : mat R) (j : Z) (p : place) : R * R * R :=
  let k := ((if fst p then 0 else m_cols R z - 1) + (j + if snd p then 1 else 0) * m_cols R z)%Z in ((m_at R x k + if fst p then 360 else 0), m_at R y k, m_at R z k).

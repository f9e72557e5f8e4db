(** Specification: the lines of a level inside one cell of the mesh, in terms of its four corners only. *)
From Coq Require Import ZArith Reals.
From Verif Require Import M_Extract.
Local Open Scope R_scope.

(** A corner of a cell: left or right, lower or upper; the cell gives longitude, latitude and value at each. *)
Definition place := (bool * bool)%type.
Definition lon (c : place -> R * R * R) (p : place) : R := fst (fst (c p)).
Definition lat (c : place -> R * R * R) (p : place) : R := snd (fst (c p)).
Definition val (c : place -> R * R * R) (p : place) : R := snd (c p).
Definition next_to (p q : place) : Prop := (fst p = fst q /\ snd p <> snd q) \/ (fst p <> fst q /\ snd p = snd q).

(** The level is met on the side from p to q, at u. *)
Definition met (c : place -> R * R * R) (level : R) (p q : place) (u : R * R) : Prop :=
  next_to p q /\ (val c p > level /\ val c q <= level \/ val c p <= level /\ val c q > level) /\
  exists t, val c p + t * (val c q - val c p) = level /\ u = (lon c p + t * (lon c q - lon c p), lat c p + t * (lat c q - lat c p)).
Definition mean (c : place -> R * R * R) : R := (val c (false, false) + val c (true, false) + val c (false, true) + val c (true, true)) / 4.
(** A line of the level in this cell: between two different sides; when the level meets all four sides, the two sides have a corner in common and this corner is above
    exactly if the mean of the four values is not. *)
Definition line_in_cell (c : place -> R * R * R) (level : R) (u v : R * R) : Prop :=
  exists p q p' q', met c level p q u /\ met c level p' q' v /\ ~ (p = p' /\ q = q') /\ ~ (p = q' /\ q = p') /\
    ((forall a b, next_to a b -> (val c a > level <-> val c b <= level)) ->
     exists k, (k = p \/ k = q) /\ (k = p' \/ k = q') /\ (val c k > level <-> mean c <= level)).

(** The cell with lower left corner in column i and row j of the arrays. *)
Definition cell_of (x y z : mat R) (i j : Z) (p : place) : R * R * R :=
  let k := (i + (if fst p then 1 else 0) + (j + if snd p then 1 else 0) * m_cols R z)%Z in (m_at R x k, m_at R y k, m_at R z k).
(** Columns i0 .. i0 + w - 1 and rows j0 .. j0 + h - 1 of an array. *)
Definition cropped (i0 j0 w h : Z) (m : mat R) : mat R := mkMat R h w (fun k => m_at R m (i0 + k mod w + (j0 + k / w) * m_cols R m)%Z).

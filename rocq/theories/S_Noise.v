(** Specification for C149: a field with noise, and how far it may move the contours. *)
From Coq Require Import ZArith Reals.
From Verif Require Import M_Extract S_Cntr.
Local Open Scope R_scope.

(** The mean of the values at the corners of cell q *)
Definition cell_mean (z : mat R) (q : Z * Z) : R :=
  let at_ i j := m_at R z (fst q + i + (snd q + j) * m_cols R z)%Z in (at_ 0%Z 0%Z + at_ 1%Z 0%Z + at_ 0%Z 1%Z + at_ 1%Z 1%Z) / 4.
(** Two opposite corners of the cell lie above the level and the other two do not: both ways to join the four crossings are possible. *)
Definition saddle (z : mat R) (level : R) (q : Z * Z) : Prop :=
  let over i j := level < m_at R z (fst q + i + (snd q + j) * m_cols R z)%Z in
  (over 0%Z 0%Z /\ over 1%Z 1%Z /\ ~ over 1%Z 0%Z /\ ~ over 0%Z 1%Z) \/ (~ over 0%Z 0%Z /\ ~ over 1%Z 1%Z /\ over 1%Z 0%Z /\ over 0%Z 1%Z).

(** z' is z with noise of at most eps at every grid point. *)
Record noisy (z z' : mat R) (eps : R) : Prop := {
  nz_rows : m_rows R z' = m_rows R z;
  nz_cols : m_cols R z' = m_cols R z;
  nz_values : forall k, in_mesh (m_cols R z) (m_rows R z) k -> Rabs (m_at R z' k - m_at R z k) <= eps }.
(** The level is further than eps from every value, and from the mean of the cells in which the values alone do not decide. *)
Record clear_of (z : mat R) (level eps : R) : Prop := {
  co_values : forall k, in_mesh (m_cols R z) (m_rows R z) k -> eps < Rabs (m_at R z k - level);
  co_means : forall q, is_cell (m_cols R z) (m_rows R z) q -> saddle z level q -> eps < Rabs (cell_mean z q - level) }.

(** Vertex u of the one field and u' of the other lie on the same side of the grid, where the two fields meet the level, and no further apart than the noise allows: the
    fraction eps / (d - 2 eps) of the side, where d is the difference of the values at its ends. *)
Definition moved (x y z z' : mat R) (level eps : R) (u u' : R * R) : Prop :=
  exists p q t t', side (m_cols R z) (m_rows R z) (p, q) /\
    m_at R z p + t * (m_at R z q - m_at R z p) = level /\ m_at R z' p + t' * (m_at R z' q - m_at R z' p) = level /\ 0 < t < 1 /\ 0 < t' < 1 /\
    u = (m_at R x p + t * (m_at R x q - m_at R x p), m_at R y p + t * (m_at R y q - m_at R y p)) /\
    u' = (m_at R x p + t' * (m_at R x q - m_at R x p), m_at R y p + t' * (m_at R y q - m_at R y p)) /\
    2 * eps < Rabs (m_at R z q - m_at R z p) /\ Rabs (t' - t) <= eps / (Rabs (m_at R z q - m_at R z p) - 2 * eps).

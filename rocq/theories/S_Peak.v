(** Specification: a field that holds the values of one Gaussian. *)
From Coq Require Import ZArith Reals.
From Verif Require Import M_Gauss M_Extract S_Cntr S_Border.
Local Open Scope R_scope.

(** At every grid point z is the Gaussian of its coordinates *)
Definition one_gaussian (x y z : mat R) (A x0 y0 sigma_x sigma_y theta : R) : Prop :=
  forall k, in_mesh (m_cols R z) (m_rows R z) k -> m_at R z k = gaussian_at A x0 y0 sigma_x sigma_y theta (m_at R x k) (m_at R y k).
(** It is circular, or one of its axes lies along the meridian or the parallel *)
Definition aligned (sigma_x sigma_y theta : R) : Prop := Rabs sigma_x = Rabs sigma_y \/ cos theta = 0 \/ sin theta = 0.
(** The value is beyond the level, seen from the far field: above it for a hill (A > 0), below it for a basin (A < 0) *)
Definition beyond_level (A level v : R) : Prop := (0 < A /\ level < v) \/ (A < 0 /\ v < level).
(** Some grid point is beyond the level and none on the border is *)
Definition level_inside (z : mat R) (A level : R) : Prop :=
  (exists k, in_mesh (m_cols R z) (m_rows R z) k /\ beyond_level A level (m_at R z k)) /\ forall k, border_point (m_cols R z) (m_rows R z) k -> ~ beyond_level A level (m_at R z k).

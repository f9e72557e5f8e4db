(** Specification for C153: the hills (or basins) of a field at a level. *)
From Coq Require Import ZArith Reals List.
From Verif Require Import M_Extract S_Cntr S_Border S_Enclose S_Hill.
Import ListNotations.

(** [hill] is true for hills and false for basins.  The border lies on the other side of the level and the points of that side are connected; [tops] has one point of each hill. *)
Record hills_at (z : mat R) (level : R) (hill : bool) (tops : list Z) : Prop := {
  hl_border : forall p, border_point (m_cols R z) (m_rows R z) p -> is_higher (m_at R z p) level = negb hill;
  hl_between : forall p q, in_mesh (m_cols R z) (m_rows R z) p -> in_mesh (m_cols R z) (m_rows R z) q -> is_higher (m_at R z p) level = negb hill -> is_higher (m_at R z q) level = negb hill -> joined_on_one_side z level p q;
  hl_tops : forall h, In h tops -> in_mesh (m_cols R z) (m_rows R z) h /\ is_higher (m_at R z h) level = hill;
  hl_apart : NoDup tops /\ forall h h', In h tops -> In h' tops -> joined_on_one_side z level h h' -> h = h';
  hl_all : forall p, in_mesh (m_cols R z) (m_rows R z) p -> is_higher (m_at R z p) level = hill -> exists h, In h tops /\ joined_on_one_side z level h p }.

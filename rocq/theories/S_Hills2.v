(** Specification for the part of C153 on whole runs: fields with at most n hills (or basins) at a level *)
From Verif Require Import M_Base M_Eddy M_Detect M_Window S_Cntr S_Pipeline S_Process S_Border S_Hill.
From Coq Require Import List.
Open Scope Z_scope.

(** The border of the field lies on one side of the level, the points of that side are connected over neighbours in the rows and columns, and each point of the other side is connected in this way to
    one of at most n points. *)
Definition at_most_hills (f : grid num) (level : num) (n : nat) : Prop := exists hill tops, (length tops <= n)%nat /\ 1 <= width f /\ 1 <= height f /\
  (forall p, border_point (width f) (height f) p -> value_above f level p = negb hill) /\
  (forall p q, in_mesh (width f) (height f) p -> in_mesh (width f) (height f) q -> value_above f level p = negb hill -> value_above f level q = negb hill -> connected (width f) (height f) (value_above f level) beside_only p q) /\
  (forall p, in_mesh (width f) (height f) p -> value_above f level p = hill -> exists h, In h tops /\ in_mesh (width f) (height f) h /\ connected (width f) (height f) (value_above f level) beside_only h p).

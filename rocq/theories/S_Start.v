(** Specification: the same closed contour, listed from another vertex. *)
From Coq Require Import QArith List.
Import ListNotations.
From Verif Require Import M_Base M_Window S_Window.

(** The closed contour with the vertices vs, listed from the vertex number k and ending with it *)
Definition listed_from (k : nat) (vs : list (Q * Q)) : list (Q * Q) :=
  let l := skipn k vs ++ firstn k vs in match l with [] => [] | v :: _ => l ++ [v] end.

(** Specification: the field with its signs reversed, and what is found in it. *)
From Coq Require Import QArith List Permutation.
Import ListNotations.
From Verif Require Import M_Base M_Window.

(** A value, NaN included, with the opposite sign *)
Definition minus (x : num) : num := match x with Num q => Num (- q) | NaN => NaN end.
Definition reversed_field (f : grid num) : grid num := map (map minus) f.
(** The sign and the extremum with the opposite signs, at the same place; the same error *)
Definition reversed_outcome (r : res (num * (num * num * num))) : res (num * (num * num * num)) :=
  match r with Ok (s, (v, y, x)) => Ok (minus s, (minus v, y, x)) | Err e => Err e end.
(** The search answers each vertex on its own. *)
Definition each_alone (tree : list (Q * Q) -> list (Q * Q) -> list nat) : Prop := exists answer, forall points vertices, points <> [] -> tree points vertices = map (answer points) vertices.

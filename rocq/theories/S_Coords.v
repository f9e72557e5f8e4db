(** Specification: names of dimensions and grids. *)
From Verif Require Import M_Base M_Coords.
Open Scope string_scope.

Definition occurs (sub s : string) : Prop := exists a b, s = a ++ sub ++ b.
Definition lon_name (n : string) : Prop := occurs "lon" n \/ n = "x".
Definition lat_name (n : string) : Prop := (occurs "lat" n \/ n = "y") /\ ~ lon_name n.
Definition time_dim (n : string) : Prop := occurs "time" n \/ n = "t".
Definition lon_dim (n : string) : Prop := lon_name n /\ ~ time_dim n.
Definition lat_dim (n : string) : Prop := lat_name n /\ ~ time_dim n.
(** [n] is the only one of [l] with the property. *)
Definition the_only (P : string -> Prop) (l : list string) (n : string) : Prop := In n l /\ P n /\ forall m, In m l -> P m -> m = n.
(** The dataset has data variables named like a longitude and like a latitude. *)
Definition coordinate_variables (vars : list string) : Prop := (exists v, In v vars /\ lon_name v) /\ (exists v, In v vars /\ lat_name v).

(** Cell (i, j) of a nested array. *)
Definition at2 {A} (X : list (list A)) (i j : nat) : option A := match nth_error X i with Some r => nth_error r j | None => None end.
(** The grid of 1-D coordinates whose rows run along longitude. *)
Definition grid_of {A} (xs ys : list A) (G : list (list A) * list (list A)) : Prop :=
  length (fst G) = length ys /\ length (snd G) = length ys /\
  (forall i, (i < length ys)%nat -> exists rx ry, nth_error (fst G) i = Some rx /\ nth_error (snd G) i = Some ry /\ length rx = length xs /\ length ry = length xs) /\
  forall i j, (i < length ys)%nat -> (j < length xs)%nat -> at2 (fst G) i j = nth_error xs j /\ at2 (snd G) i j = nth_error ys i.
(** Index along dimension [n] of the cell (i, j) of a 2-D array whose dimensions are [order]. *)
Definition index_along (order : list string) (n : string) (i j : nat) : nat := if String.eqb (hd "" order) n then i else j.

(** Specification: the same data with an axis stored in the other direction. *)
From Coq Require Import QArith List.
From Verif Require Import M_Base M_Window S_Window.

(** An axis, stored from the other end if b *)
Definition turned {A} (b : bool) (l : list A) : list A := if b then rev l else l.
(** An array whose rows (latitudes) and columns (longitudes) are stored from the other end *)
Definition turned_field {A} (by_ bx : bool) (g : grid A) : grid A := turned by_ (map (turned bx) g).
(** No two grid points of the field have the value v. *)
Definition held_once (field : grid num) (v : Q) : Prop := forall i j i' j' q q', at_ field i j = Some (Num q) -> at_ field i' j' = Some (Num q') -> (q == v)%Q -> (q' == v)%Q -> i = i' /\ j = j'.

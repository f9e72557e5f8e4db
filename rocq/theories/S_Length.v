(** Specification: the length of a polyline, and a library function for distances that is accurate to one unit in the last place. *)
From Coq Require Import Reals List.
Import ListNotations.
From Flocq Require Import Core.
From Verif Require Import M_Base M_Frechet M_FrechetFloat S_Double S_FrechetFloat.
Open Scope R_scope.

Definition distance (a b : point) : R := sqrt ((fst a - fst b) ^ 2 + (snd a - snd b) ^ 2).
Fixpoint polyline_length (P : list point) : R :=
  match P with a :: (b :: _) as rest => distance a b + polyline_length rest | _ => 0 end.
Definition segments (P : list point) : nat := (length P - 1)%nat.
(** [math.dist] of vertices that are numbers: a double, not negative, off by at most one unit in the last place (2^-1074 near zero) *)
Definition accurate_dist (mdist : fpoint -> fpoint -> fl) : Prop :=
  forall a b, moderate_point a -> moderate_point b -> exists v, mdist (some_point a) (some_point b) = Fin v /\ double v /\ 0 <= v /\
    Rabs (v - distance a b) <= distance a b * bpow radix2 (-52) + bpow radix2 (-1074).

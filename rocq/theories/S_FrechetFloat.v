(** Specification: missing coordinates, coordinates that cannot overflow, and the smallest largest distance of a coupling as computed. *)
From Coq Require Import Reals.
From Flocq Require Import Core.
From Verif Require Import M_Base M_Printer M_Frechet M_FrechetFloat S_Double S_Frechet.
Open Scope R_scope.

(** A vertex with a coordinate that is NaN *)
Definition missing (a : fpoint) : Prop := fst a = None \/ snd a = None.
(** A double whose square, and the sum of two such squares, does not overflow *)
Definition moderate (x : R) : Prop := double x /\ Rabs x <= bpow radix2 510.
Definition moderate_coordinate (x : option R) : Prop := match x with Some r => moderate r | None => True end.
Definition moderate_curve (P : list fpoint) : Prop := forall a, In a P -> moderate_coordinate (fst a) /\ moderate_coordinate (snd a).
(** A vertex of numbers, as an element of a curve of floats *)
Definition some_point (a : point) : fpoint := (Some (fst a), Some (snd a)).
Definition moderate_point (a : point) : Prop := moderate (fst a) /\ moderate (snd a).
(** x is the computed distance of the coupled vertices ij, and is a number *)
Definition computed (P Q : list fpoint) (ij : nat * nat) (x : R) : Prop :=
  exists a b, nth_error P (fst ij) = Some a /\ nth_error Q (snd ij) = Some b /\ norm64 a b = Fin x.
(** v is the smallest length of a coupling when distances that are NaN are left out *)
Definition is_frechet_ignoring (P Q : list fpoint) (v : R) : Prop :=
  (exists l, coupling (length P) (length Q) l /\ forall ij x, In ij l -> computed P Q ij x -> x <= v) /\
  (forall l, coupling (length P) (length Q) l -> exists ij x, In ij l /\ computed P Q ij x /\ v <= x).

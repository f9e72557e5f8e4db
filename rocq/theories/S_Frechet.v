(** Specification: couplings, the discrete Frechet distance (Eiter and Mannila 1994), and transformations of curves. *)
From Coq Require Import Reals.
From Verif Require Import M_Base M_Frechet.
Open Scope R_scope.

(** A coupling of a curve of n and one of m points: a list of pairs of positions that starts at the two first points, ends at the
    two last points and advances by one on one curve or on both at every step. *)
Definition advance (a b : nat * nat) : Prop :=
  b = (S (fst a), snd a) \/ b = (fst a, S (snd a)) \/ b = (S (fst a), S (snd a)).
Fixpoint linked (a : nat * nat) (l : list (nat * nat)) : Prop :=
  match l with [] => True | b :: t => advance a b /\ linked b t end.
Definition coupling (n m : nat) (l : list (nat * nat)) : Prop :=
  exists t, l = (O, O) :: t /\ linked (O, O) t /\ last l (O, O) = (n - 1, m - 1)%nat.
Definition pair_distance (P Q : list point) (ij : nat * nat) (d : R) : Prop :=
  exists a b, nth_error P (fst ij) = Some a /\ nth_error Q (snd ij) = Some b /\ d = dist a b.
(** The length of a coupling: the largest distance of coupled points. *)
Definition coupling_length (P Q : list point) (l : list (nat * nat)) (d : R) : Prop :=
  (exists ij, In ij l /\ pair_distance P Q ij d) /\ (forall ij d', In ij l -> pair_distance P Q ij d' -> d' <= d).
(** The discrete Frechet distance: the smallest length of a coupling. *)
Definition is_frechet (P Q : list point) (d : R) : Prop :=
  (exists l, coupling (length P) (length Q) l /\ coupling_length P Q l d) /\
  (forall l d', coupling (length P) (length Q) l -> coupling_length P Q l d' -> d <= d').

(** Thinning only happens when both curves have more than 300 points. *)
Definition not_thinned {A} (P Q : list A) : Prop := (Z.of_nat (length P) <= 300 \/ Z.of_nat (length Q) <= 300)%Z.
Definition no_repeat (P : list point) : Prop := forall i a b, nth_error P i = Some a -> nth_error P (S i) = Some b -> a <> b.

Definition translate (u : point) (P : list point) : list point := map (fun a => (fst a + fst u, snd a + snd u)) P.
Definition scale (k : R) (P : list point) : list point := map (fun a => (k * fst a, k * snd a)) P.
Definition rotate (t : R) (P : list point) : list point :=
  map (fun a => (cos t * fst a - sin t * snd a, sin t * fst a + cos t * snd a)) P.

(** [P'] consists of the points of [P] at the positions 0, c, 2c, ... *)
Definition kept {A} (c : nat) (P P' : list A) : Prop := forall i, nth_error P' i = nth_error P (i * c).
(** Both curves are thinned together, with c, c+1, c+2, ..., until one has at most 300 points. *)
Inductive thinning {A} : nat -> list A -> list A -> list A -> list A -> Prop :=
  | thinning_done c P Q : not_thinned P Q -> thinning c P Q P Q
  | thinning_round c P Q P1 Q1 P' Q' : ~ not_thinned P Q -> kept c P P1 -> kept c Q Q1 -> thinning (c + 1) P1 Q1 P' Q' -> thinning c P Q P' Q'.

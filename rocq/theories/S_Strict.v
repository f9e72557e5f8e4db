(** Specification: stricter identification criteria. *)
From Coq Require Import QArith List.
Import ListNotations.
From Verif Require Import M_Base M_Detect M_Pipeline.

Definition with_criteria (c : criteria) (o : tracker) : tracker :=
  mkTracker (t_data o) (t_X o) (t_Y o) (t_filter o) (t_flops o) (t_rossby o) (t_fit_ellipse o) (t_eccentricity o) (t_similarity o)
    (t_surface o) (t_tree o) (t_query o) (t_keep o) (t_garbage o) c (t_skip_gaussian_fit o) (t_out_format o).
Definition at_most (a b : num) : Prop := exists p q, a = Num p /\ b = Num q /\ (p <= q)%Q.
(** c' asks for smaller and rounder eddies that agree better with their Gaussian than c does, and for an agreement with the fitted ellipse
    that is not larger (sic: raising this criterion admits more contours, see C19) *)
Definition stricter (c c' : criteria) : Prop :=
  at_most (c_max_area c') (c_max_area c) /\ at_most (c_eccentricity c') (c_eccentricity c) /\ at_most (c_gaussian_fit c) (c_gaussian_fit c') /\
  at_most (c_ellipse_fit c') (c_ellipse_fit c).
(** The Rossby radius is not negative (C46). *)
Definition rossby_not_negative (rossby : num -> num) : Prop := forall y q, rossby y = Num q -> (0 <= q)%Q.
(** Some of the items, in the same order *)
Inductive some_of {A} : list A -> list A -> Prop :=
  | some_none : some_of [] []
  | some_keep x l l' : some_of l l' -> some_of (x :: l) (x :: l')
  | some_drop x l l' : some_of l l' -> some_of l (x :: l').

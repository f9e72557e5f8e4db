(** Specification for C151: a run with inexact distances and radii.  Positions, radii and the distance function may all be inexact; delta bounds the error of the distances
    (in radians), rho that of the radii. *)
From Coq Require Import Qabs.
From Verif Require Import M_Base M_Tables S_Tracking S_Region S_Shape.
Open Scope Z_scope.

Record inexact (hav hav' : Q * Q -> Q * Q -> Q) (detect detect' : Z -> res frame) (tf : Z) (delta rho : Q) : Prop := {
  ix_delta : (0 <= delta)%Q;
  ix_eddies : forall t i, 0 <= t < tf -> (eddy_at detect t i <-> eddy_at detect' t i);
  ix_distances : forall s t i j c c' p p', 0 <= s < t -> t < tf -> placed detect t i c -> placed detect' t i c' -> placed detect s j p -> placed detect' s j p' -> (Qabs (hav' c' p' - hav c p) <= delta)%Q;
  ix_radii : forall t i c rad c' rad', 0 <= t < tf -> eddy_with detect t i c rad -> eddy_with detect' t i c' rad' -> (Qabs (rad' - rad) <= rho)%Q }.

(** The errors cannot change what an eddy at c continues: each track has one latest position, which is clearly within the radius or clearly outside, and the distances of
    two tracks clearly differ. *)
Definition decided (hav : Q * Q -> Q * Q -> Q) (rs : list row) (c : Q * Q) (rad delta rho : Q) : Prop :=
  forall k p, latest_position rs k p -> (6371 * delta + rho < Qabs (hav c p * 6371 - rad))%Q /\
    forall k' p', latest_position rs k' p' -> (k = k' -> p = p') /\ (k <> k' -> (2 * delta < Qabs (hav c p - hav c p'))%Q).

(** area_latlon_polygon (M_Area.v) in real arithmetic. *)
From Coq Require Import Reals Qreals.
From Verif Require Import M_Base M_Area.
Open Scope R_scope.

(** numpy.arctan2 (without signed zeros) *)
Definition atan2 (y x : R) : R :=
  if Rlt_dec 0 x then atan (y / x)
  else if Rlt_dec x 0 then if Rlt_dec y 0 then atan (y / x) - PI else atan (y / x) + PI
  else if Rlt_dec 0 y then PI / 2 else if Rlt_dec y 0 then - (PI / 2) else 0.
(** numpy.mod for a positive divisor *)
Definition Rmod (x m : R) : R := x - m * IZR (Int_part (x / m)).
Definition real_ops : fops R :=
  mkFops R Q2R PI Rplus Rminus Rmult Rdiv Rmod sin cos sqrt Rabs atan2.
(** geometry.py 440-470 *)
Definition area (contour : list (R * R)) : R := area_latlon_polygon real_ops contour.
Definition az (p : R * R) : R := azimuth real_ops p.
Definition angular_distance (p : R * R) : R := colat real_ops p.
Definition radians (x : R) : R := deg2rad real_ops x.
(** The argument of the two square roots in 450: the roots of a and of 1 - a are taken. *)
Definition haversine (p : R * R) : R :=
  sin (radians (snd p) / 2) * sin (radians (snd p) / 2) + cos (radians (snd p)) * (sin (radians (fst p) / 2) * sin (radians (fst p) / 2)).

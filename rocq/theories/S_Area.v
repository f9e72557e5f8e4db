(** Specification: contours in longitude and latitude, in degrees. *)
From Coq Require Import Reals.
From Verif Require Import M_Base M_Area M_AreaR.
Open Scope R_scope.

(** The same place written with longitudes that differ by whole turns. *)
Definition same_place (p q : R * R) : Prop := snd q = snd p /\ exists k : Z, fst q = fst p + 360 * IZR k.
Definition mirror_ew (p : R * R) : R * R := (- fst p, snd p).
Definition mirror_ns (p : R * R) : R * R := (fst p, - snd p).
(** A segment that turns by exactly half a turn as seen from (0, 0). *)
Definition half_turn (p q : R * R) : Prop := exists k : Z, az q - az p = PI + 2 * PI * IZR k.
Inductive adjacent (p q : R * R) : list (R * R) -> Prop :=
| adj_here l : adjacent p q (p :: q :: l)
| adj_later x l : adjacent p q l -> adjacent p q (x :: l).
Definition no_half_turn (l : list (R * R)) : Prop := forall p q, adjacent p q l -> ~ half_turn p q.
(** The points on the line through (0, 0) and its antipode: no azimuth is defined there. *)
Definition at_origin (p : R * R) : Prop := sin (snd p * (PI / 180)) = 0 /\ cos (snd p * (PI / 180)) * sin (fst p * (PI / 180)) = 0.
Definition earth_radius : R := 6378137.

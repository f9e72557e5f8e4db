(** Specification: the area a contour encloses, in polar coordinates about the point 0 E 0 N of the unit sphere: distance (an angle) and azimuth.  Between two
    vertices the distance is taken to change linearly with the azimuth. *)
From Coq Require Import Reals.
From Coquelicot Require Import Coquelicot.
From Verif Require Import M_Base M_Area M_AreaR S_Area.
Open Scope R_scope.

(** The change of azimuth from p to q, taken the short way round *)
Definition azimuth_change (p q : R * R) (d : R) : Prop := - PI <= d < PI /\ exists k : Z, az q - az p = d + 2 * PI * IZR k.
(** The area between the segment from p to q and the point 0 E 0 N: the integral of 1 - cos (distance) over the azimuth *)
Definition swept (p q : R * R) (s : R) : Prop :=
  exists d, azimuth_change p q d /\ s = RInt (fun t => (1 - cos (angular_distance p + t * (angular_distance q - angular_distance p))) * d) 0 1.
(** ... and for all the segments of a contour, with the signs of the changes of azimuth *)
Inductive swept_by : list (R * R) -> R -> Prop :=
| swept_none : swept_by [] 0
| swept_point p : swept_by [p] 0
| swept_more p q l s s' : swept p q s -> swept_by (q :: l) s' -> swept_by (p :: q :: l) (s + s').
(** The size of the segments: |change of azimuth| times the square of the change of distance *)
Inductive coarseness : list (R * R) -> R -> Prop :=
| coarse_none : coarseness [] 0
| coarse_point p : coarseness [p] 0
| coarse_more p q l d e : azimuth_change p q d -> coarseness (q :: l) e -> coarseness (p :: q :: l) (Rabs d * (angular_distance q - angular_distance p) ^ 2 + e).
(** A contour moved east by [shift] degrees *)
Definition moved_east (shift : R) (p : R * R) : R * R := (fst p + shift, snd p).

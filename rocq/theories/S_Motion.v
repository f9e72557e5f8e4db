(** Specification: tracks that follow the motion of the eddies.  [name t i] is the name (a number) of the physical eddy that the analysis of step t lists under
    the identifier i. *)
From Verif Require Import M_Base M_Tables S_Tracking.
Open Scope Z_scope.

(** The rows of step t under these names, and of all the steps before t. *)
Definition named (name : Z -> Z -> Z) (t : Z) (r : row) : row := with_id (at_time t r) (name t (r_id r)).
Definition history (detect : Z -> res frame) (name : Z -> Z -> Z) (t : Z) : list row := flat_map (fun s => map (named name s) (found detect s)) (steps 0 t).
(** A physical eddy has been seen before. *)
Definition known (rs : list row) (k : Z) : Prop := exists r, In r rs /\ r_id r = k.
(** The time resolution of the data is sufficient at step t: every eddy seen before has its last position within its radius and strictly closer than the last
    position of any other eddy; a new eddy has no such position within its radius. *)
Definition resolved (hav : Q * Q -> Q * Q -> Q) (detect : Z -> res frame) (name : Z -> Z -> Z) (t : Z) : Prop :=
  let before := history detect name t in
  forall r, In r (found detect t) -> r_idx r = 0 -> exists c rad, position_of r c /\ radius_eddy (r_cols r) = Num rad /\
    let k := name t (r_id r) in
    (known before k -> forall p, latest_position before k p -> reaches hav c rad p /\ forall k' p', k' <> k -> latest_position before k' p' -> (hav c p < hav c p')%Q) /\
    (~ known before k -> forall k' p', latest_position before k' p' -> ~ reaches hav c rad p').
(** Names are given in the order of appearance: 0, 1, 2, ..., and for eddies that appear in the same step in the order of its list. *)
Definition named_in_order (detect : Z -> res frame) (name : Z -> Z -> Z) (tf : Z) : Prop :=
  (forall i, name 0 i = i) /\ (forall t, 0 < t <= tf -> exists n, contiguous (history detect name t) n) /\
  forall t r r', 0 < t < tf -> In r (found detect t) -> In r' (found detect t) -> r_id r < r_id r' ->
    ~ known (history detect name t) (name t (r_id r)) -> ~ known (history detect name t) (name t (r_id r')) -> name t (r_id r) < name t (r_id r').

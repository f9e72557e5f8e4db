(** Specification vocabulary for eddy tables and tracking.  It uses the table data types of the model (rows with labels
    and columns) but none of its functions. *)
From Coq Require Import Sorting.Permutation Sorting.Sorted.
From Verif Require Import M_Base M_Tables.
Open Scope Z_scope.

(** The identifiers in use are exactly 0 .. n-1. *)
Definition contiguous (rs : list row) (n : nat) : Prop :=
  forall i, (exists r, In r rs /\ r_id r = i) <-> 0 <= i < Z.of_nat n.

(** Every eddy of the table has a first contour point (contour index 0). *)
Definition has_first_point (rs : list row) : Prop :=
  forall r, In r rs -> exists r0, In r0 rs /\ r_id r0 = r_id r /\ r_time r0 = r_time r /\ r_idx r0 = 0.

(** The position of the extremum is a number. *)
Definition has_position (r : row) : Prop :=
  exists y x, maxima_y (r_cols r) = Num y /\ maxima_x (r_cols r) = Num x.

(** Tables that a snapshot detection can return (empty, or numbered from 0 with complete contours). *)
Definition snapshot_ok (f : frame) : Prop :=
  (exists n, contiguous (rows f) n) /\ has_first_point (rows f) /\
  (forall r, In r (rows f) -> r_idx r = 0 -> has_position r) /\
  (forall r r', In r (rows f) -> In r' (rows f) -> r_time r = r_time r').

(** Chronological table order: identifier, then time, then contour index. *)
Definition row_le (a b : row) : Prop :=
  r_id a < r_id b \/ (r_id a = r_id b /\
    (r_time a < r_time b \/ (r_time a = r_time b /\ r_idx a <= r_idx b))).
Definition sorted_table (rs : list row) : Prop := StronglySorted row_le rs.

(** The same row with another identifier / stamped with a time. *)
Definition with_id (r : row) (i : Z) : row := mkRow i (r_time r) (r_idx r) (r_cols r).
Definition at_time (t : Z) (r : row) : row := mkRow (r_id r) t (r_idx r) (r_cols r).

(** (y, x) is a latest known position of track k in a table. *)
Definition latest_position (rs : list row) (k : Z) (p : Q * Q) : Prop :=
  exists r, In r rs /\ r_id r = k /\ r_idx r = 0 /\
    maxima_y (r_cols r) = Num (fst p) /\ maxima_x (r_cols r) = Num (snd p) /\
    forall r', In r' rs -> r_id r' = k -> r_time r' <= r_time r.

(** What is assumed of the nearest-neighbour search: for every query point it returns the distance to, and the position
    of, one of the nearest points. *)
Definition query_ok (hav : Q * Q -> Q * Q -> Q) (query : list (Q * Q) -> list (Q * Q) -> list (Q * nat)) : Prop :=
  forall P N, P <> [] ->
    length (query P N) = length N /\
    forall i n, nth_error N i = Some n ->
      exists d k p, nth_error (query P N) i = Some (d, k) /\ nth_error P k = Some p /\
        (d == hav n p)%Q /\ forall p', In p' P -> (hav n p <= hav n p')%Q.

(** [range(a, b)] *)
Definition steps (a b : Z) : list Z := map (fun i => a + Z.of_nat i) (seq 0 (Z.to_nat (b - a))).

(** Every time step in [a, b) is analysed without exception and yields a proper snapshot table (possibly empty). *)
Definition snapshots_ok (detect : Z -> res frame) (a b : Z) : Prop :=
  forall t, a <= t < b -> exists f, detect t = Ok f /\ snapshot_ok f.
(** Eddies were found at time step t. *)
Definition eddies_at (detect : Z -> res frame) (t : Z) : Prop := exists f, detect t = Ok f /\ rows f <> [].
(** The rows found at time step t. *)
Definition found (detect : Z -> res frame) (t : Z) : list row :=
  match detect t with Ok f => rows f | Err _ => [] end.

(** The eddies of a snapshot are kept apart: one first contour point per identifier, listed in order 0,1,2,... *)
Definition distinct_eddies (f : frame) : Prop :=
  exists n, map r_id (filter (fun r => r_idx r =? 0) (rows f)) = map Z.of_nat (seq 0 n).

(** The extremum of the eddy whose first row is r lies closer to p than the eddy's own radius
    ([hav] in radians, 6371 km). *)
Definition position_of (r : row) (c : Q * Q) : Prop :=
  maxima_y (r_cols r) = Num (fst c) /\ maxima_x (r_cols r) = Num (snd c).
Definition reaches (hav : Q * Q -> Q * Q -> Q) (c : Q * Q) (rad : Q) (p : Q * Q) : Prop :=
  (hav c p * 6371 < rad)%Q.

(** [time_tracking] returned a table / raised. *)
Definition returns (o : outcome) (R : frame) : Prop := snd o = Ok R.

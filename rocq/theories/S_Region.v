(** Specification: the eddies of one region.  [here t i] says that the eddy that step t lists under the identifier i lies in the region, [num t i] is its identifier
    when only the eddies of the region are listed. *)
From Verif Require Import M_Base M_Tables S_Tracking.
Open Scope Z_scope.

Definition only_region (here : Z -> Z -> bool) (num : Z -> Z -> Z) (t : Z) (all part : list row) : Prop :=
  part = map (fun r => with_id r (num t (r_id r))) (filter (fun r => here t (r_id r)) all) /\
  forall r r', In r all -> In r' all -> here t (r_id r) = true -> here t (r_id r') = true -> num t (r_id r) = num t (r_id r') -> r_id r = r_id r'.
(** No eddy has an earlier position from the other side of the border within its radius. *)
Definition separated (hav : Q * Q -> Q * Q -> Q) (detect : Z -> res frame) (here : Z -> Z -> bool) (tf : Z) : Prop :=
  forall s t r r' c rad p, 0 <= s < t -> t < tf -> In r (found detect t) -> In r' (found detect s) -> r_idx r = 0 -> r_idx r' = 0 -> here t (r_id r) <> here s (r_id r') ->
    position_of r c -> radius_eddy (r_cols r) = Num rad -> position_of r' p -> ~ reaches hav c rad p.
(** The tracks of a table have one latest position each, at different distances from c. *)
Definition clear_choice (hav : Q * Q -> Q * Q -> Q) (rs : list row) (c : Q * Q) : Prop :=
  forall k k' p p', latest_position rs k p -> latest_position rs k' p' -> (k = k' -> p = p') /\ (k <> k' -> ~ (hav c p == hav c p')%Q).
Definition has_radius (r : row) : Prop := exists rad, radius_eddy (r_cols r) = Num rad.
(** The eddies of step t. *)
Definition eddy_at (detect : Z -> res frame) (t i : Z) : Prop := exists r, In r (found detect t) /\ r_id r = i.

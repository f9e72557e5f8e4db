(** Specification for C150: two histories of the same eddies that look alike: the same eddies are listed, the same earlier positions are within the radius of an eddy, and
    of two earlier positions the same one is nearer. *)
From Verif Require Import M_Base M_Tables S_Tracking S_Region.
Open Scope Z_scope.

(** At step t the eddy listed as i has its extremum at c, and radius rad. *)
Definition eddy_with (detect : Z -> res frame) (t i : Z) (c : Q * Q) (rad : Q) : Prop :=
  exists r, In r (found detect t) /\ r_id r = i /\ r_idx r = 0 /\ position_of r c /\ radius_eddy (r_cols r) = Num rad.
Definition placed (detect : Z -> res frame) (t i : Z) (c : Q * Q) : Prop :=
  exists r, In r (found detect t) /\ r_id r = i /\ r_idx r = 0 /\ position_of r c.

Record alike (hav hav' : Q * Q -> Q * Q -> Q) (detect detect' : Z -> res frame) (tf : Z) : Prop := {
  al_eddies : forall t i, 0 <= t < tf -> (eddy_at detect t i <-> eddy_at detect' t i);
  al_reach : forall s t i j c rad c' rad' p p', 0 <= s < t -> t < tf -> eddy_with detect t i c rad -> eddy_with detect' t i c' rad' -> placed detect s j p -> placed detect' s j p' ->
    (reaches hav c rad p <-> reaches hav' c' rad' p');
  al_nearer : forall s1 s2 t i j k c c' p p' q q', 0 <= s1 < t -> 0 <= s2 < t -> t < tf -> placed detect t i c -> placed detect' t i c' ->
    placed detect s1 j p -> placed detect' s1 j p' -> placed detect s2 k q -> placed detect' s2 k q' -> ((hav c p <= hav c q)%Q <-> (hav' c' p' <= hav' c' q')%Q) }.

(** The same rows with every position p moved to f p; f changes no distance *)
Definition moved_rows (f : Q * Q -> Q * Q) (rs rs' : list row) : Prop :=
  Forall2 (fun r r' => r_id r' = r_id r /\ r_idx r' = r_idx r /\ radius_eddy (r_cols r') = radius_eddy (r_cols r) /\ forall c, position_of r c -> position_of r' (f c)) rs rs'.
Definition keeps_distances (hav : Q * Q -> Q * Q -> Q) (f : Q * Q -> Q * Q) : Prop := forall p q, (hav (f p) (f q) == hav p q)%Q.

(** Specification: a run through the data from the last step to the first. *)
From Coq Require Import List.
From Verif Require Import M_Base M_Tables M_Detect M_Pipeline.
Open Scope Z_scope.

Definition in_reverse (o : tracker) : tracker :=
  mkTracker (match t_data o with Series l => Series (rev l) | Single g => Single g end) (t_X o) (t_Y o) (t_filter o) (t_flops o) (t_rossby o) (t_fit_ellipse o) (t_eccentricity o) (t_similarity o)
    (t_surface o) (t_tree o) (t_query o) (t_keep o) (t_garbage o) (t_criteria o) (t_skip_gaussian_fit o) (t_out_format o).
(** What was found at step t with the columns c and at step s with the columns c' is in one track. *)
Definition one_track (R : frame) (t : Z) (c : cols) (s : Z) (c' : cols) : Prop :=
  exists r r', In r (rows R) /\ In r' (rows R) /\ r_time r = t /\ r_cols r = c /\ r_time r' = s /\ r_cols r' = c' /\ r_id r = r_id r'.

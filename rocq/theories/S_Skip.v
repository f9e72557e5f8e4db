(** Specification: a run with and without the fit of a Gaussian. *)
From Coq Require Import QArith List.
Import ListNotations.
From Verif Require Import M_Base M_Tables M_Detect M_Pipeline.

Definition with_skip (b : bool) (o : tracker) : tracker :=
  mkTracker (t_data o) (t_X o) (t_Y o) (t_filter o) (t_flops o) (t_rossby o) (t_fit_ellipse o) (t_eccentricity o) (t_similarity o)
    (t_surface o) (t_tree o) (t_query o) (t_keep o) (t_garbage o) (t_criteria o) b (t_out_format o).
(** The columns that do not come from the Gaussian: the five that have names of their own apart from the Gaussian error, and the first twelve of
    the others (vertex, level, area, ellipse, eccentricity, centre, sign, extremum; S_Detect.point_columns). *)
Definition same_but_gaussian (c c' : cols) : Prop :=
  maxima_y c = maxima_y c' /\ maxima_x c = maxima_x c' /\ radius_eddy c = radius_eddy c' /\ contour_ellipse_error c = contour_ellipse_error c' /\
  firstn 12 (others c) = firstn 12 (others c').
(** What a skipped fit leaves: no parameters and the error 0 *)
Definition no_gaussian (c : cols) : Prop := contour_gaussian_error c = Num 0 /\ skipn 12 (others c) = [NaN].
(** What a fit leaves: its five parameters *)
Definition gaussian_given (c : cols) : Prop := length (skipn 12 (others c)) = 5%nat.
(** l are some of l', in the same order, each related by P to its partner. *)
Inductive some_of_by {A} (P : A -> A -> Prop) : list A -> list A -> Prop :=
  | by_none : some_of_by P [] []
  | by_keep x x' l l' : P x x' -> some_of_by P l l' -> some_of_by P (x :: l) (x' :: l')
  | by_drop x l l' : some_of_by P l l' -> some_of_by P l (x :: l').

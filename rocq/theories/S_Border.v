(** Specification: the points on the border of the grid, and closed outlines. *)
From Coq Require Import ZArith List QArith.
From Verif Require Import M_Base M_Tables M_Eddy M_Detect M_Window M_Pipeline S_Cntr S_Tracking S_Levels.
Import ListNotations.
Local Open Scope Z_scope.

(** Point k of a mesh lies on its border: first or last row, first or last column *)
Definition border_point (cols rows k : Z) : Prop :=
  S_Cntr.in_mesh cols rows k /\ (row_of cols k = 0 \/ row_of cols k = rows - 1 \/ col_of cols k = 0 \/ col_of cols k = cols - 1).
(** A value of a field on its border *)
Definition border_value (f : grid num) (v : num) : Prop :=
  exists i j row, nth_error f i = Some row /\ nth_error row j = Some v /\ (i = 0%nat \/ S i = length f \/ j = 0%nat \/ S j = length row).
Definition above_level (v level : num) : Prop := exists a b, v = Num a /\ level = Num b /\ (b < a)%Q.
(** On the border no value is greater than the level, or all are (a missing value is not) *)
Definition border_on_one_side (f : grid num) (level : num) : Prop :=
  (forall v, border_value f v -> ~ above_level v level) \/ (forall v, border_value f v -> above_level v level).
(** Fields and coordinates are arrays of one shape, with at least two rows and two columns *)
Definition shaped {A} (ny nx : nat) (g : grid A) : Prop := length g = ny /\ forall row, In row g -> length row = nx.
Definition one_shape (o : tracker) (f : grid num) : Prop := exists ny nx, (2 <= ny)%nat /\ (2 <= nx)%nat /\ shaped ny nx f /\ shaped ny nx (t_X o) /\ shaped ny nx (t_Y o).

(** The outline of an eddy: the columns contour_path_x and contour_path_y of its rows, which are the first two besides those the tracking reads *)
Definition outline (e : eddy) : list (num * num) := map (fun c => (nth 0 (others c) NaN, nth 1 (others c) NaN)) e.
(** It ends where it began *)
Definition closed_outline {A} (l : list A) : Prop := exists v l1 l2, l = v :: l1 /\ l = l2 ++ [v] /\ (2 <= length l)%nat.
(** The columns eddy_sign and maxima *)
Definition eddy_sign_column (c : cols) : num := nth 10 (others c) NaN.
Definition maxima_column (c : cols) : num := nth 11 (others c) NaN.

(** Colours of the figures: /repo/trackeddy/trackeddy.py 517-545 and 584-625. *)
From Verif Require Import M_Base.
Open Scope string_scope.

(** 588-602: the colour a discarded contour is drawn in; ".r" is matplotlib's marker "." in colour "r" *)
Definition marker_colour (reason : string) : string :=
  if String.eqb reason "eccentricity" then "r" else if String.eqb reason "area" then "gray" else if String.eqb reason "similarity" then "c"
  else if String.eqb reason "ellipse_area" then "m" else if String.eqb reason "eddy_is_island" then "orange"
  else if String.eqb reason "gaussian_fit_failed" then "pink" else "b".
(** 604-625: entries of the legend, label and colour *)
Definition labels : list string :=
  ["Fail eccentricity"; "Area fail"; "Contour != ellipse"; "Ellipse area fail"; "Eddy is island"; "Gaussian fit failed"; "Contour != Gaussian"].
Definition colours : list string := ["r"; "gray"; "c"; "m"; "orange"; "pink"; "b"].
Definition legend : list (string * string) := combine labels colours.

Open Scope nat_scope.
(** 525: [np.linspace(0, len(n_colors) - 1, n, dtype=int)], entry k (exact arithmetic, truncated) *)
Definition colour_index (ncolours n k : nat) : nat := if Nat.eqb n 1 then 0 else (ncolours - 1) * k / (n - 1).
(** 536-538: the colour (an index into the list of names) of the contours of the k-th of n levels *)
Definition level_colour (ncolours n k : nat) : nat := colour_index ncolours n k.
(** 540-545: the colour of the legend entry of the k-th level, drawn for fewer than 5 levels *)
Definition legend_colour (n k : nat) : option nat := if Nat.ltb n 5 then if Nat.ltb k n then Some k else None else None.

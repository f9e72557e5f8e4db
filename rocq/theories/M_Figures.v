(** What the two plotting methods draw: /repo/trackeddy/trackeddy.py 517-545 (plot_eddy_detection_multilevel) and 547-630
    (plot_eddy_detection_in_level).  Left out: the background (pcolormesh), titles, sizes and the seven legend points (M_Plot). *)
From Verif Require Import M_Base M_Tables M_Area M_Eddy M_Detect M_Plot.
Open Scope Z_scope.

(** Columns of a row by name, in the order of eddy.py 73-88 without the columns named in [cols]. *)
Definition col (j : nat) (r : row) : num := nth j (others (r_cols r)) NaN.
Definition path_x := col 0. Definition path_y := col 1. Definition level_col := col 2. Definition contour_x := col 8. Definition contour_y := col 9.

(** [df.index.levels[0]]: a table without rows is [DataFrame({"": []})], whose index has no levels (decorators.py 81). *)
Definition index_levels (f : frame) : res (list Z) := if empty f then Err AttributeError else Ok (ids f).
(** [df.loc[k]] for a label of the first level *)
Definition loc (k : Z) (f : frame) : res (list row) := match filter (fun r => r_id r =? k) (rows f) with [] => Err KeyError | l => Ok l end.

Fixpoint traverse {A B} (f : A -> res B) (l : list A) : res (list B) :=
  match l with [] => Ok [] | x :: t => do y <- f x; do ys <- traverse f t; Ok (y :: ys) end.

(** 565-573: for each eddy the line along its contour and the points at its centre (one per row) *)
Definition left_panel (eddies : frame) : res (list (contour * contour)) :=
  do ks <- index_levels eddies;
  traverse (fun k => do rs <- loc k eddies; Ok (map (fun r => (path_x r, path_y r)) rs, map (fun r => (contour_x r, contour_y r)) rs)) ks.

(** 584-602: for each discarded contour a point, in the colour of its reason.  [[].index] is a method: TypeError.  A label that occurs twice
    selects a table, and comparing its column with a string is ambiguous: ValueError. *)
Definition right_panel (discarded : list (Z * dict)) : res (list (num * num * string)) :=
  match discarded with
  | [] => Err TypeError
  | _ =>
      traverse (fun kd => match filter (fun e => fst e =? fst kd) discarded with
        | [(_, d)] => match dget "contour_x" d, dget "contour_y" d, dget "reason" d with
                      | Some (CScalar (VNum x)), Some (CScalar (VNum y)), Some (CScalar (VStr r)) => Ok (x, y, marker_colour r)
                      | _, _, _ => Err KeyError
                      end
        | _ => Err ValueError
        end) discarded
  end.

Definition plot_in_level (eddies : frame) (discarded : list (Z * dict)) : res (list (contour * contour) * list (num * num * string)) :=
  do l <- left_panel eddies; do r <- right_panel discarded; Ok (l, r).

(** 524: [Series.unique()]: first occurrences, in order (NaN counts as equal to NaN) *)
Definition same_value (a b : num) : bool := neqb a b || (is_nan a && is_nan b).
Fixpoint unique_values (seen l : list num) : list num :=
  match l with
  | [] => []
  | x :: t => if existsb (same_value x) seen then unique_values seen t else x :: unique_values (seen ++ [x]) t
  end.
(** 536: [np.where(level == levels)[0][0]] *)
Fixpoint where_first (i : nat) (x : num) (l : list num) : res nat :=
  match l with [] => Err IndexError | y :: t => if neqb x y then Ok i else where_first (S i) x t end.

(** 532-538: one line per row of the table, the contour of the eddy of that row, in the colour of its level; [.level[0]] is the value in the row labelled 0.
    524: a table without rows has no column "level".  The legend (540-545) is in M_Plot.  Tables of a snapshot (two index levels) only. *)
Definition plot_multilevel (ncolours : nat) (f : frame) : res (list (contour * nat)) :=
  if empty f then Err AttributeError else
  let levels := unique_values [] (map level_col (rows f)) in
  traverse (fun r0 =>
    do rs <- loc (r_id r0) f;
    match filter (fun r => r_idx r =? 0) rs with
    | [r] => do k <- where_first 0 (level_col r) levels;
             Ok (map (fun r => (path_x r, path_y r)) rs, level_colour ncolours (length levels) k)
    | [] => Err KeyError
    | _ => Err ValueError
    end) (rows f).

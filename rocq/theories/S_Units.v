(** Specification: a field, levels and tables in another unit, or counted from another zero. *)
From Verif Require Import M_Base M_Tables M_Area M_Detect M_Extract M_Window M_Pipeline S_Pipeline.
Open Scope Z_scope.

(** A value in a unit that is k times smaller, and a value counted from a zero that is c lower, as fractions in lowest terms *)
Definition convert (k : Q) (x : num) : num := match x with Num q => Num (Qred (k * q)) | NaN => NaN end.
Definition raise_by (c : Q) (x : num) : num := match x with Num q => Num (Qred (q + c)) | NaN => NaN end.

(** *** fields and tables with all values changed by u *)
Section Values.
Variable u : num -> num.
Definition field_with (f : grid num) : grid num := map (map u) f.
Definition data_with (d : raw) : raw := match d with Series l => Series (map field_with l) | Single f => Single (field_with f) end.
(** The same object on the changed field *)
Definition tracker_with (o : tracker) : tracker := on_data o (data_with (t_data o)) (t_garbage o).

(** Tables: the columns "level" and "maxima" hold values of the field *)
Definition other_columns : list string :=
  ["contour_path_x"; "contour_path_y"; "level"; "area_eddy"; "ellipse_params_a"; "ellipse_params_b"; "ellipse_params_theta"; "ellipse_eccen"; "contour_x"; "contour_y"; "eddy_sign"; "maxima"]%string.
Fixpoint change_named (names : list string) (values : list num) : list num :=
  match names, values with
  | n :: names, v :: values => (if (String.eqb n "level" || String.eqb n "maxima")%bool then u v else v) :: change_named names values
  | _, _ => values
  end.
Definition columns_with (c : cols) : cols :=
  mkCols (maxima_y c) (maxima_x c) (radius_eddy c) (contour_ellipse_error c) (contour_gaussian_error c) (change_named other_columns (others c)).
Definition row_with (r : row) : row := mkRow (r_id r) (r_time r) (r_idx r) (columns_with (r_cols r)).
Definition table_with (f : frame) : frame := mkFrame (map row_with (rows f)) (ids f).
(** Everything a run produces: the files written, and the table or the exception *)
Definition outcome_with (x : outcome) : outcome :=
  (map (fun file => (fst file, table_with (snd file))) (fst x), match snd x with Ok R => Ok (table_with R) | Err e => Err e end).

(** The arithmetic of the contour tracer commutes with the change: the mean of four values, and the part of the way between two values at which a level is met.
    Exact arithmetic does, and so does floating point without underflow when the unit changes by a power of 2. *)
Record exact_for (F : fops num) : Prop := {
  ef_mean : forall a b c d, f_div F (f_add F (f_add F (f_add F (u a) (u b)) (u c)) (u d)) (f_cst F 4) = u (f_div F (f_add F (f_add F (f_add F a b) c) d) (f_cst F 4));
  ef_part : forall l a b, f_div F (f_sub F (u l) (u a)) (f_sub F (u b) (u a)) = f_div F (f_sub F l a) (f_sub F b a) }.
(** So does the filter, *)
Definition filter_for (o : tracker) : Prop := forall g, t_filter o (field_with g) = match t_filter o g with Ok f => Ok (option_map field_with f) | Err e => Err e end.
(** and the fitted surface, if one is fitted *)
Definition surface_with (z : mat num) : mat num := mkMat num (m_rows num z) (m_cols num z) (fun i => u (m_at num z i)).
Definition fit_for (o : tracker) : Prop :=
  t_skip_gaussian_fit o = true \/
  (surface_arrays o /\ forall f level c, t_surface o (field_with f) (u level) c =
     match t_surface o f level c with Ok (g, (x, y, z)) => Ok (g, (x, y, surface_with z)) | Err e => Err e end).
End Values.

(** All values of a field lie on one side of zero, also after the change *)
Definition positive (f : grid num) : Prop := forall r q, In r f -> In (Num q) r -> (0 < q)%Q.
Definition negative (f : grid num) : Prop := forall r q, In r f -> In (Num q) r -> (q < 0)%Q.
Definition same_side (c : Q) (f : grid num) : Prop := (positive f /\ positive (field_with (raise_by c) f)) \/ (negative f /\ negative (field_with (raise_by c) f)).
(** The entry of a row in a column, by name *)
Fixpoint entry (n : string) (names : list string) (values : list num) : num :=
  match names, values with m :: names, v :: values => if String.eqb n m then v else entry n names values | _, _ => NaN end.
Definition column (n : string) (r : row) : num := entry n other_columns (others (r_cols r)).

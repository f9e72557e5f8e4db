(** Specification of a whole run: what the table contains, in terms of the data, the levels and the checks a contour must pass. *)
From Coq Require Import Permutation.
From Verif Require Import M_Base M_Tables M_Area M_Eddy M_Detect M_Extract M_Window M_Pipeline S_Cntr S_Tracking S_Levels S_Detect.
From Verif Require S_Turn.
Open Scope Z_scope.

(** *** contour lines of a field (S_Cntr) *)
Definition width (f : grid num) : Z := Z.of_nat (width_of f).
Definition height (f : grid num) : Z := Z.of_nat (length f).
(** The value at point k, counted along the rows, is greater than the level *)
Definition value_above (f : grid num) (level : num) (k : Z) : bool := ngt (nth (Z.to_nat k) (List.concat f) NaN) level.
(** The position on a side of the mesh at which the level is met *)
Definition position (o : tracker) (f : grid num) (level : num) (e : Z * Z) : num * num :=
  let F := t_flops o in
  let at_ (g : grid num) (k : Z) := nth (Z.to_nat k) (List.concat g) NaN in
  let part := f_div F (f_sub F level (at_ f (fst e))) (f_sub F (at_ f (snd e)) (at_ f (fst e))) in
  let between (g : grid Q) := f_add F (f_mul F part (f_sub F (at_ (numbers g) (snd e)) (at_ (numbers g) (fst e)))) (at_ (numbers g) (fst e)) in
  (between (t_X o), between (t_Y o)).
Definition contour_line (o : tracker) (f : grid num) (level : num) (c : contour) : Prop :=
  exists curve, is_curve (width f) (height f) (value_above f level) curve /\ c = map (position o f level) curve.
(** The value in the middle of a cell: the mean of its four points, added in some order *)
Definition middle_value (o : tracker) (f : grid num) (cell : Z * Z) (v : num) : Prop :=
  let F := t_flops o in
  let at_corner i j := nth (Z.to_nat (corner (width f) cell i j)) (List.concat f) NaN in
  exists a b c d, Permutation [a; b; c; d] [at_corner 0 0; at_corner 1 0; at_corner 0 1; at_corner 1 1] /\ v = f_div F (f_add F (f_add F (f_add F a b) c) d) (f_cst F 4).
(** All of them: together they pass once through every side of the mesh that the level crosses; in the cells where there is a choice they go round the middle on the side of its value;
    closed ones have the higher values to the left *)
Definition contour_lines (o : tracker) (f : grid num) (level : num) (cs : list contour) : Prop :=
  exists curves, Forall (is_curve (width f) (height f) (value_above f level)) curves /\ cs = map (map (position o f level)) curves /\
    (forall e, side (width f) (height f) e -> crossed (value_above f level) e -> total_visits e curves = 1%nat) /\
    (exists middle_above, (forall cell, exists v, middle_value o f cell v /\ middle_above cell = ngt v level) /\ Forall (cuts_off (width f) (height f) (value_above f level) middle_above) curves) /\
    Forall (fun c => closed_curve c -> S_Turn.higher_left (width f) (value_above f level) c) curves.

(** *** the checks, with the data of a step *)
(** Contour lines of a surface given by three arrays *)
Definition surface_position (F : fops num) (x y z : mat num) (level : num) (e : Z * Z) : num * num :=
  let part := f_div F (f_sub F level (m_at num z (fst e))) (f_sub F (m_at num z (snd e)) (m_at num z (fst e))) in
  let between (m : mat num) := f_add F (f_mul F part (f_sub F (m_at num m (snd e)) (m_at num m (fst e)))) (m_at num m (fst e)) in
  (between x, between y).
Definition surface_lines (F : fops num) (x y z : mat num) (level : num) (cs : list contour) : Prop :=
  let over k := ngt (m_at num z k) level in
  exists curves, Forall (is_curve (m_cols num z) (m_rows num z) over) curves /\ cs = map (map (surface_position F x y z level)) curves /\
    (2 <= m_cols num z -> 2 <= m_rows num z -> forall e, side (m_cols num z) (m_rows num z) e -> crossed over e -> total_visits e curves = 1%nat).
(** The Gaussian check looks at the parameters of the fitted surface and at the contour lines of that surface at the level of the contour *)
Definition gaussian_fit (o : tracker) (f : grid num) (level : num) (fit : contour -> res (list num * list contour)) : Prop :=
  forall c,
    (forall e, t_surface o f level c = Err e -> fit c = Err e) /\
    (forall g x y z, t_surface o f level c = Ok (g, (x, y, z)) -> 0 < m_rows num z -> 0 < m_cols num z ->
       if (m_rows num x =? m_rows num z) && (m_cols num x =? m_cols num z) && (m_rows num y =? m_rows num z) && (m_cols num y =? m_cols num z)
       then exists cs, fit c = Ok (g, cs) /\ surface_lines (t_flops o) x y z level cs else fit c = Err ValueError).
(** The settings under which the contours of a field are judged (S_Detect).  The data of a contour are those of [data_in_contour], see C26-C31, C68, C69. *)
Record conditions (o : tracker) (f : grid num) (level : num) (s : setting) : Prop := {
  cd_flops : s_flops s = t_flops o; cd_rossby : s_rossby s = t_rossby o; cd_ellipse : s_fit_ellipse s = t_fit_ellipse o;
  cd_eccentricity : s_eccentricity s = t_eccentricity o; cd_similarity : s_similarity s = t_similarity o;
  cd_data : s_data s = data_in_contour (t_tree o) (t_X o) (t_Y o) f; cd_gauss : gaussian_fit o f level (s_gauss_fit s);
  cd_crit : s_crit s = t_criteria o; cd_skip : s_skip s = t_skip_gaussian_fit o }.
(** The columns recorded for an accepted contour, one entry per vertex *)
Definition record_of (s : setting) (level : num) (c : contour) (e : eddy) : Prop :=
  recorded (enclosed_area (s_flops s)) (disc_radius (s_flops s)) (s_fit_ellipse s) (s_eccentricity s) (s_similarity s) (s_data s) (s_gauss_fit s) level (s_skip s) c e.
(** The snapshot that step t selects: the t-th, counted from the end when t is negative *)
Definition selected (d : raw) (t : Z) (g : grid num) : Prop :=
  match d with
  | Single g' => g = g'
  | Series l => (0 <= t /\ nth_error l (Z.to_nat t) = Some g) \/ (t < 0 /\ 0 <= t + Z.of_nat (length l) /\ nth_error l (Z.to_nat (t + Z.of_nat (length l))) = Some g)
  end.
(** The field analysed at a step: the filtered snapshot *)
Definition field_at (o : tracker) (t : Z) (f : grid num) : Prop := exists g, selected (t_data o) t g /\ t_filter o g = Ok (Some f).
(** The fit returns as many parameters as its initial guess has *)
Definition five_fitted (o : tracker) : Prop := forall f level c g s, t_surface o f level c = Ok (g, s) -> length g = 5%nat.

(** The steps analysed by a run *)
Definition run_steps (o : tracker) (t0 : Z) (tf : option Z) : list Z :=
  let all := match t_data o with Series l => steps 0 (Z.of_nat (length l)) | Single _ => [] end in
  match tf with None => all | Some n => if n =? 0 then all else steps t0 n end.
(** The eddies found in the field of step t at a level: the records of the contour lines that pass all checks *)
Definition found_at (o : tracker) (t : Z) (level : num) (N : list eddy) : Prop :=
  exists f s cs fs, field_at o t f /\ conditions o f level s /\ contour_lines o f level cs /\ Forall2 (is_judged s level) cs fs /\ N = kept fs.
(** e is one of them *)
Definition detection (o : tracker) (levels : list num) (t : Z) (e : eddy) : Prop :=
  exists f level s c, field_at o t f /\ In level levels /\ ~ zero level /\ contour_line o f level c /\ conditions o f level s /\ is_accepted s c /\ record_of s level c e.
(** The rows of an eddy in a table with times *)
Definition rows_at (t id : Z) (e : eddy) : list row := map (at_time t) (contour_rows id e).

(** *** processes: a sequence of runs, none of which raised, of any objects *)
Inductive process : state -> Prop :=
| started : process initial_state
| tracked o t0 tf levels ntimes online st files R st' : five_fitted o -> process st -> tracking o t0 tf levels ntimes online st = ((files, Ok R), st') -> process st'.

(** *** the same object with other data and with other contents of uninitialised memory *)
Definition on_data (o : tracker) (d : raw) (garbage : mat num -> num -> Z -> M_Cntr.cell) : tracker :=
  mkTracker d (t_X o) (t_Y o) (t_filter o) (t_flops o) (t_rossby o) (t_fit_ellipse o) (t_eccentricity o) (t_similarity o) (t_surface o) (t_tree o) (t_query o)
    (t_keep o) garbage (t_criteria o) (t_skip_gaussian_fit o) (t_out_format o).
(** The fitted surfaces are arrays *)
Definition surface_arrays (o : tracker) : Prop :=
  forall f level c g x y z, t_surface o f level c = Ok (g, (x, y, z)) -> 0 <= m_rows num z /\ 0 <= m_cols num z.

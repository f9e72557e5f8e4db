(** Specification of the detection at one level: the checks a contour must pass, one by one, and the record of an eddy. *)
From Verif Require Import M_Base M_Tables M_Area M_Eddy M_Detect S_Levels.
Open Scope Z_scope.

(** *** the columns of an eddy: one [cols] per contour vertex p *)
Definition point_columns (lvl area rad a b theta err ecc cx cy sgn v y x : num) (g : list num) (gerr : num) (p : num * num) : cols :=
  mkCols y x rad err gerr ([fst p; snd p; lvl; area; a; b; theta; ecc; cx; cy; sgn; v] ++ g).

(** *** the record of an eddy: column names and values *)
Definition final_dict (id : Z) (c : contour) (lvl ar rad a b th err ecc cx cy sgn v y x : num) (g : dict) (gerr : num) : dict :=
  [("identifier", CScalar (VNum (Num (inject_Z id))));
   ("contour_path_x", CVec (map (fun p => VNum (fst p)) c)); ("contour_path_y", CVec (map (fun p => VNum (snd p)) c));
   ("level", CScalar (VNum lvl)); ("area_eddy", CScalar (VNum ar)); ("radius_eddy", CScalar (VNum rad));
   ("ellipse_params_a", CScalar (VNum a)); ("ellipse_params_b", CScalar (VNum b)); ("ellipse_params_theta", CScalar (VNum th));
   ("contour_ellipse_error", CScalar (VNum err)); ("ellipse_eccen", CScalar (VNum ecc));
   ("contour_x", CScalar (VNum cx)); ("contour_y", CScalar (VNum cy)); ("eddy_sign", CScalar (VNum sgn));
   ("maxima", CScalar (VNum v)); ("maxima_y", CScalar (VNum y)); ("maxima_x", CScalar (VNum x))]%string ++ g ++
  [("contour_gaussian_error"%string, CScalar (VNum gerr))].
Definition gauss_dict (l : list num) : dict :=
  combine ["gaussian_params_x"; "gaussian_params_y"; "gaussian_params_sigma_x"; "gaussian_params_sigma_y"; "gaussian_params_theta"]%string
          (map (fun x => CScalar (VNum x)) l).
Definition no_gauss_dict : dict := [("gaussian_params"%string, CScalar VNone)].

Definition record_columns (skip : bool) : list string :=
  (["identifier"; "contour_path_x"; "contour_path_y"; "level"; "area_eddy"; "radius_eddy"; "ellipse_params_a"; "ellipse_params_b";
    "ellipse_params_theta"; "contour_ellipse_error"; "ellipse_eccen"; "contour_x"; "contour_y"; "eddy_sign"; "maxima"; "maxima_y"; "maxima_x"]%string ++
   (if skip then ["gaussian_params"%string]
    else ["gaussian_params_x"; "gaussian_params_y"; "gaussian_params_sigma_x"; "gaussian_params_sigma_y"; "gaussian_params_theta"]%string) ++
   ["contour_gaussian_error"%string])%list.

Section Spec.
Variable area : contour -> num.
Variable radius : contour -> num.
Variable rossby : num -> num.
Variable fit_ellipse : contour -> res (contour * (num * num * num)).
Variable eccentricity : num -> num -> num.
Variable similarity : contour -> contour -> res num.
Variable data_in_contour : contour -> res (num * (num * num * num)).
Variable gauss_fit : contour -> res (list num * list contour).
Variable level : num.
Variable crit : criteria.
Variable skip_gaussian_fit : bool.

(** Mean position of the vertices that are numbers, and mean of all. *)
Definition valid (l : list num) : list Q := flat_map (fun x => match x with Num q => [q] | NaN => [] end) l.
Definition Qmean (l : list Q) : num :=
  match l with [] => NaN | _ => Num (fold_left Qplus l 0 / inject_Z (Z.of_nat (length l)))%Q end.
Definition centre (c : contour) : num * num := (Qmean (valid (map fst c)), Qmean (valid (map snd c))).

(** The checks, in order: name and whether the contour passes (or the computation raises). *)
Definition size_check (c : contour) : res bool := Ok (negb (ngt (radius c) (nmul (c_max_area crit) (rossby (snd (centre c)))))).
Definition area_check (c : contour) : res bool :=
  do f <- fit_ellipse c;
  Ok (nle (nabs (nsub (area c) (area (fst f))))
          (nadd (Num (1 # 100000000)) (nmul (nmul (Num (1 # 10)) (c_ellipse_fit crit)) (nabs (area (fst f)))))).
Definition eccentricity_check (c : contour) : res bool :=
  do f <- fit_ellipse c; Ok (negb (ngt (eccentricity (fst (fst (snd f))) (snd (fst (snd f)))) (c_eccentricity crit))).
(** (sic) the similarity must not exceed the criterion *)
Definition similarity_check (c : contour) : res bool :=
  do f <- fit_ellipse c; do s <- similarity c (fst f); Ok (negb (ngt s (c_ellipse_fit crit))).
Definition island_check (c : contour) : res bool :=
  do d <- data_in_contour c; Ok (negb (neqb (fst (fst (snd d))) (Num 0))).
Definition gauss_found_check (c : contour) : res bool :=
  do g <- gauss_fit c; Ok (negb (Nat.eqb (length (snd g)) 0)).
Definition gauss_check (c : contour) : res bool :=
  do g <- gauss_fit c; do s <- similarity c (List.concat (snd g)); Ok (negb (nlt s (c_gaussian_fit crit))).

Definition checks (c : contour) : list (string * res bool) :=
  app [("area", size_check c); ("ellipse_area", area_check c); ("eccentricity", eccentricity_check c);
       ("similarity", similarity_check c); ("eddy_is_island", island_check c)]%string
      (if skip_gaussian_fit then [] else [("gaussian_fit_failed", gauss_found_check c); ("gaussian_check", gauss_check c)]%string).

(** A contour whose mean vertex coincides (to 1e-8 + 1e-5 |first|) with its first vertex, NaN counting as equal to NaN. *)
Definition coincide (m f : num) : Prop :=
  match m, f with
  | NaN, NaN => True
  | Num a, Num b => (Qabs (a - b) <= (1 # 100000000) + (1 # 100000) * Qabs b)%Q
  | _, _ => False
  end.
Definition mean_all (l : list num) : num := if forallb (fun x => negb (is_nan x)) l then Qmean (valid l) else NaN.
Definition degenerate (c : contour) : Prop :=
  exists p rest, c = p :: rest /\ coincide (mean_all (map fst c)) (fst p) /\ coincide (mean_all (map snd c)) (snd p).

Definition accepted (c : contour) : Prop := ~ degenerate c /\ forall nb, In nb (checks c) -> snd nb = Ok true.
Definition rejected (c : contour) (reason : string) : Prop :=
  ~ degenerate c /\ exists pre post, checks c = (pre ++ (reason, Ok false) :: post)%list /\ forall nb, In nb pre -> snd nb = Ok true.
Definition raises (c : contour) (e : exn) : Prop :=
  ~ degenerate c /\ exists pre name post, checks c = (pre ++ (name, Err e) :: post)%list /\ forall nb, In nb pre -> snd nb = Ok true.

(** The record of an accepted contour. *)
Definition recorded (c : contour) (e : eddy) : Prop :=
  exists el a b th err sgn v y x g gerr,
    fit_ellipse c = Ok (el, (a, b, th)) /\ similarity c el = Ok err /\ data_in_contour c = Ok (sgn, (v, y, x)) /\
    (if skip_gaussian_fit then g = [NaN] /\ gerr = Num 0
     else exists gc, gauss_fit c = Ok (g, gc) /\ similarity c (List.concat gc) = Ok gerr) /\
    e = map (point_columns level (area c) (radius c) a b th err (eccentricity a b) (fst (centre c)) (snd (centre c)) sgn v y x g gerr) c.

(** What became of the contours of a level, in order. *)
Inductive fate := Ignored | Kept (e : eddy) | Dropped (reason : string).
Definition judged (c : contour) (f : fate) : Prop :=
  match f with
  | Ignored => degenerate c
  | Kept e => accepted c /\ recorded c e
  | Dropped r => rejected c r
  end.
End Spec.
Definition kept (fs : list fate) : list eddy := flat_map (fun f => match f with Kept e => [e] | _ => [] end) fs.
Definition dropped (fs : list fate) : list string := flat_map (fun f => match f with Dropped r => [r] | _ => [] end) fs.
(** The reason noted in a row of the discarded table. *)
Definition noted_reason (d : Z * dict) : option string :=
  match dget "reason" (snd d) with Some (CScalar (VStr r)) => Some r | _ => None end.

(** *** an analysis: the numerical parts and the user's settings *)
Record setting := mkSetting {
  s_flops : fops num; s_rossby : num -> num; s_fit_ellipse : contour -> res (contour * (num * num * num));
  s_eccentricity : num -> num -> num; s_similarity : contour -> contour -> res num;
  s_data : contour -> res (num * (num * num * num)); s_gauss_fit : contour -> res (list num * list contour);
  s_crit : criteria; s_skip : bool }.
(** The optimiser returns as many parameters as its initial guess has. *)
Definition five_parameters (s : setting) : Prop := forall c g gc, s_gauss_fit s c = Ok (g, gc) -> length g = 5%nat.

(** The area of a contour (S_Area) and the radius in km of the disc of that area. *)
Definition enclosed_area (F : fops num) (c : contour) : num := area_latlon_polygon F c.
Definition disc_radius (F : fops num) (c : contour) : num := f_sqrt F (f_div F (enclosed_area F c) (f_pi F)).
(** The code run on the contours of a level. *)
Definition analyse (s : setting) (level : num) (cs : list contour) (st : state) : res (frame * list (Z * dict)) * state :=
  detect_one_level (s_flops s) (s_rossby s) (s_fit_ellipse s) (s_eccentricity s) (s_similarity s) (s_data s) (s_gauss_fit s)
    level (s_crit s) (s_skip s) cs st.
(** The specification for that setting. *)
Definition is_accepted (s : setting) (c : contour) : Prop :=
  accepted (enclosed_area (s_flops s)) (disc_radius (s_flops s)) (s_rossby s) (s_fit_ellipse s) (s_eccentricity s) (s_similarity s) (s_data s)
    (s_gauss_fit s) (s_crit s) (s_skip s) c.
Definition is_rejected (s : setting) (c : contour) (reason : string) : Prop :=
  rejected (enclosed_area (s_flops s)) (disc_radius (s_flops s)) (s_rossby s) (s_fit_ellipse s) (s_eccentricity s) (s_similarity s) (s_data s)
    (s_gauss_fit s) (s_crit s) (s_skip s) c reason.
Definition does_raise (s : setting) (c : contour) (e : exn) : Prop :=
  raises (enclosed_area (s_flops s)) (disc_radius (s_flops s)) (s_rossby s) (s_fit_ellipse s) (s_eccentricity s) (s_similarity s) (s_data s)
    (s_gauss_fit s) (s_crit s) (s_skip s) c e.
Definition is_judged (s : setting) (level : num) (c : contour) (f : fate) : Prop :=
  judged (enclosed_area (s_flops s)) (disc_radius (s_flops s)) (s_rossby s) (s_fit_ellipse s) (s_eccentricity s) (s_similarity s) (s_data s)
    (s_gauss_fit s) level (s_crit s) (s_skip s) c f.

(** A call: setting, level and contours; a history of calls of one process, none of which raised. *)
Record call := mkCall { c_setting : setting; c_level : num; c_contours : list contour }.
Definition proper (k : call) : Prop := five_parameters (c_setting k) /\ Forall (fun c => c <> []) (c_contours k).
Definition run (k : call) (st : state) := analyse (c_setting k) (c_level k) (c_contours k) st.
Fixpoint clean (h : list call) (st st' : state) : Prop :=
  match h with
  | [] => st' = st
  | k :: t => exists RD st1, run k st = (Ok RD, st1) /\ clean t st1 st'
  end.
Definition fates (k : call) (fs : list fate) : Prop := Forall2 (is_judged (c_setting k) (c_level k)) (c_contours k) fs.
(** Reasons of the contours dropped since the last call that identified an eddy. *)
Fixpoint pending (acc : list string) (F : list (list fate)) : list string :=
  match F with
  | [] => acc
  | fs :: t => pending (match kept fs with [] => acc ++ dropped fs | _ => [] end) t
  end.
(** The levels that are not zero, in order. *)
Inductive selects (P : num -> Prop) : list num -> list num -> Prop :=
| sel_nil : selects P [] []
| sel_keep x l l' : P x -> selects P l l' -> selects P (x :: l) (x :: l')
| sel_drop x l l' : ~ P x -> selects P l l' -> selects P (x :: l) l'.
Definition zero (x : num) : Prop := exists q, x = Num q /\ (q == 0)%Q.

(** Floating-point operations return NaN when an argument is NaN. *)
Definition nan_op2 (f : num -> num -> num) : Prop := forall x, f NaN x = NaN /\ f x NaN = NaN.
Definition nan_strict (o : fops num) : Prop :=
  nan_op2 (f_add o) /\ nan_op2 (f_sub o) /\ nan_op2 (f_mul o) /\ nan_op2 (f_div o) /\ nan_op2 (f_mod o) /\ nan_op2 (f_atan2 o) /\
  f_sin o NaN = NaN /\ f_cos o NaN = NaN /\ f_sqrt o NaN = NaN /\ f_abs o NaN = NaN.

(** Detection at one level: TrackEddy._detect_one_level, /repo/trackeddy/trackeddy.py 275-396, its decorator
    check_return_eddies (/repo/trackeddy/decorators.py 71-88), and the choice of levels (trackeddy.py 226-228). *)
From Verif Require Import M_Base M_Tables M_Area M_Eddy.
Open Scope Z_scope.

(** A contour: its vertices (longitude, latitude). *)
Definition contour := list (num * num).

(** [np.isclose(a, b, rtol, atol)] *)
Definition isclose (a b rtol atol : num) : bool := nle (nabs (nsub a b)) (nadd atol (nmul rtol (nabs b))).
(** [np.mean] of a list of numbers (NaN when one is, or when the list is empty). *)
Definition nsum (l : list num) : num := fold_left nadd l (Num 0).
Definition ndiv (x : num) (n : nat) : num :=
  match n, x with O, _ => NaN | S _, Num a => Num (a / inject_Z (Z.of_nat n)) | _, NaN => NaN end.
Definition nmean (l : list num) : num := ndiv (nsum l) (length l).
(** [np.nanmean] *)
Definition nnanmean (l : list num) : num := nmean (filter (fun x => negb (is_nan x)) l).

(** The user's criteria (trackeddy.py 46-51). *)
Record criteria := mkCrit { c_ellipse_fit : num; c_eccentricity : num; c_gaussian_fit : num; c_max_area : num }.

Section Level.
(** Oracles: the numerical parts.  Each may raise. *)
Variable flops : fops num.                                   (* floating point; used by the area *)
Variable rossby : num -> num.                                (* approx_RD_lat *)
Variable fit_ellipse : contour -> res (contour * (num * num * num)).   (* ellipse points; axes and angle *)
Variable eccentricity : num -> num -> num.
Variable similarity : contour -> contour -> res num.         (* compute_similarity *)
Variable data_in_contour : contour -> res (num * (num * num * num)).   (* eddy_sign; eddy_maxima: value, y, x *)
Variable gauss_fit : contour -> res (list num * list contour).          (* fitted parameters; contours of the fitted surface *)
Variable level : num.
Variable crit : criteria.
Variable skip_gaussian_fit : bool.

(** 287: [np.allclose(np.mean(contour, axis=0), contour[0], equal_nan=True)] *)
Definition close_nan (a b : num) : bool := isclose a b (Num (1 # 100000)) (Num (1 # 100000000)) || (is_nan a && is_nan b).
Definition singular (c : contour) : res bool :=
  match c with
  | [] => Err IndexError
  | p :: _ => Ok (close_nan (nmean (map fst c)) (fst p) && close_nan (nmean (map snd c)) (snd p))
  end.

Definition flatten (c : contour) : list value := flat_map (fun p => [VNum (fst p); VNum (snd p)]) c.
(** 290: [Eddy(contour, level)] *)
Definition new_eddy (c : contour) : eddy_obj :=
  let z := scalar (VNum (Num 0)) in let none := scalar VNone in
  mkEddy (mkArr [length c; 2%nat] (flatten c)) (scalar (VNum level)) z z none z z none z z none z.

Definition area_of (c : contour) : num := area_latlon_polygon flops c.
Definition radius_of (c : contour) : num := f_sqrt flops (f_div flops (area_of c) (f_pi flops)).
Definition center_of (c : contour) : num * num := (nnanmean (map fst c), nnanmean (map snd c)).

(** The object at the successive stages of the pipeline. *)
Definition with_area (c : contour) (e : eddy_obj) : eddy_obj :=          (* 293-296 *)
  mkEddy (a_contour e) (a_level e) (scalar (VNum (area_of c))) (scalar (VNum (radius_of c))) (a_ellipse_params e)
         (a_ellipse_error e) (a_eccen e) (vector [fst (center_of c); snd (center_of c)]) (a_sign e) (a_maxima e)
         (a_gauss_params e) (a_gauss_error e).
Definition with_params (p : num * num * num) (e : eddy_obj) : eddy_obj :=   (* 307-309 *)
  let '(a, b, th) := p in
  mkEddy (a_contour e) (a_level e) (a_area e) (a_radius e) (vector [a; b; th])
         (a_ellipse_error e) (a_eccen e) (a_center e) (a_sign e) (a_maxima e) (a_gauss_params e) (a_gauss_error e).
Definition with_eccen (x : num) (e : eddy_obj) : eddy_obj :=              (* 326 *)
  mkEddy (a_contour e) (a_level e) (a_area e) (a_radius e) (a_ellipse_params e)
         (a_ellipse_error e) (scalar (VNum x)) (a_center e) (a_sign e) (a_maxima e) (a_gauss_params e) (a_gauss_error e).
Definition with_ellipse_error (x : num) (e : eddy_obj) : eddy_obj :=      (* 331 *)
  mkEddy (a_contour e) (a_level e) (a_area e) (a_radius e) (a_ellipse_params e)
         (scalar (VNum x)) (a_eccen e) (a_center e) (a_sign e) (a_maxima e) (a_gauss_params e) (a_gauss_error e).
(** 340, in _data_in_contour 470-471; eddy_maxima is a 3x1 array (utils.py 144) *)
Definition with_maxima (s : num) (m : num * num * num) (e : eddy_obj) : eddy_obj :=
  let '(v, y, x) := m in
  mkEddy (a_contour e) (a_level e) (a_area e) (a_radius e) (a_ellipse_params e)
         (a_ellipse_error e) (a_eccen e) (a_center e) (scalar (VNum s)) (mkArr [3%nat; 1%nat] (map VNum [v; y; x]))
         (a_gauss_params e) (a_gauss_error e).
Definition with_gauss_params (l : list num) (e : eddy_obj) : eddy_obj :=  (* 355 *)
  mkEddy (a_contour e) (a_level e) (a_area e) (a_radius e) (a_ellipse_params e)
         (a_ellipse_error e) (a_eccen e) (a_center e) (a_sign e) (a_maxima e) (vector l) (a_gauss_error e).
Definition with_gauss_error (x : num) (e : eddy_obj) : eddy_obj :=        (* 380 *)
  mkEddy (a_contour e) (a_level e) (a_area e) (a_radius e) (a_ellipse_params e)
         (a_ellipse_error e) (a_eccen e) (a_center e) (a_sign e) (a_maxima e) (a_gauss_params e) (scalar (VNum x)).

(** What happens to one contour (285-394): skipped, discarded with a reason, or stored. *)
Inductive verdict := Skip | Discard (reason : string) (e : eddy_obj) | Store (e : eddy_obj).

Definition examine (c : contour) : res verdict :=
  do s <- singular c;
  if s then Ok Skip else
  let e := with_area c (new_eddy c) in
  let max_size := nmul (c_max_area crit) (rossby (snd (center_of c))) in
  if ngt (radius_of c) max_size then Ok (Discard "area" e) else
  do (ellipse, params) <- fit_ellipse c;
  let e := with_params params e in
  if negb (isclose (area_of c) (area_of ellipse) (nmul (Num (1 # 10)) (c_ellipse_fit crit)) (Num (1 # 100000000)))
  then Ok (Discard "ellipse_area" e) else
  let ecc := eccentricity (fst (fst params)) (snd (fst params)) in
  let e := with_eccen ecc e in
  if ngt ecc (c_eccentricity crit) then Ok (Discard "eccentricity" e) else
  do sim <- similarity c ellipse;
  let e := with_ellipse_error sim e in
  if ngt sim (c_ellipse_fit crit) then Ok (Discard "similarity" e) else
  do (sgn, maxima) <- data_in_contour c;
  let e := with_maxima sgn maxima e in
  if neqb (fst (fst maxima)) (Num 0) then Ok (Discard "eddy_is_island" e) else
  if skip_gaussian_fit then Ok (Store e) else
  do (gparams, gcontours) <- gauss_fit c;
  let e := with_gauss_params gparams e in
  match gcontours with
  | [] => Ok (Discard "gaussian_fit_failed" e)
  | _ =>
      do gsim <- similarity c (List.concat gcontours);      (* np.vstack, or the only contour *)
      let e := with_gauss_error gsim e in
      if nlt gsim (c_gaussian_fit crit) then Ok (Discard "gaussian_check" e) else Ok (Store e)
  end.

(** 283-396: the loop; [info] and [disc] are the local variables eddy_info and discarded. *)
Fixpoint level_contours (cs : list contour) (info : option (list row)) (disc : option (list (Z * dict))) (s : state)
  : res (option (list row) * option (list (Z * dict))) * state :=
  match cs with
  | [] => (Ok (info, disc), s)
  | c :: rest =>
      match examine c with
      | Err e => (Err e, s)
      | Ok Skip => level_contours rest info disc s
      | Ok (Discard reason e) =>
          match discarded e reason s with
          | (Err x, s') => (Err x, s')
          | (Ok t, s') => level_contours rest info (Some t) s'
          end
      | Ok (Store e) =>
          match store e s with
          | (Err x, s') => (Err x, s')
          | (Ok t, s') => level_contours rest (Some t) disc s'
          end
      end
  end.

(** decorators.py 71-88: the two tables returned for a level; a missing discarded table becomes []. *)
Definition detect_one_level (cs : list contour) (s : state) : res (frame * list (Z * dict)) * state :=
  match level_contours cs None None s with
  | (Err e, s') => (Err e, s')
  | (Ok (info, disc), s') =>
      let d := match disc with Some t => t | None => [] end in
      match info with
      | Some t => (Ok (set_index t, d), exit_state s')
      | None => (Ok (empty_frame, d), s')
      end
  end.
End Level.

(** trackeddy.py 228: [levels = levels[levels != 0]] (NaN != 0 is true). *)
Definition nonzero_levels (levels : list num) : list num := filter (fun l => negb (neqb l (Num 0))) levels.

(** trackeddy.py 226-264 [_detect_snapshot]: the levels one after the other, with the state of the process threaded through.
    [detect l] is [self._detect_one_level(l)]; the merging of the tables is that of [level_loop] (M_Tables). *)
Section Snapshot.
Variable query : list (Q * Q) -> list (Q * Q) -> list (Q * nat).
Variable keep : bool.
Variable detect : num -> state -> res (frame * list (Z * dict)) * state.
Fixpoint snapshot_loop (joint : frame) (levels : list num) (s : state) : res frame * state :=
  match levels with
  | [] => (Ok joint, s)
  | l :: rest =>
      match detect l s with
      | (Err e, s') => (Err e, s')
      | (Ok (cur, _), s') =>
          if empty cur then snapshot_loop joint rest s'
          else if empty joint then snapshot_loop cur rest s'
          else match (do (index, nearest) <- detect_nearest query joint cur;
                      do (j, c) <- update_better_eddy joint cur index nearest;
                      merge_reindex keep j c) with
               | Err e => (Err e, s')
               | Ok m => snapshot_loop m rest s'
               end
      end
  end.
Definition detect_snapshot (levels : list num) (s : state) : res frame * state :=
  snapshot_loop empty_frame (nonzero_levels levels) s.
End Snapshot.

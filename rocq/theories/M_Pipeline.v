(** A whole run: TrackEddy.time_tracking (/repo/trackeddy/trackeddy.py 181-224) on a dataset, with _detect_snapshot (226-264), _detect_one_level (275-396),
    extract_contours (/repo/trackeddy/geometry.py 9-42) and the data collected by the decorators (/repo/trackeddy/decorators.py) from one call to the next.
    The parts are those of M_Tables, M_Detect, M_Eddy, M_Extract and M_Window; this file joins them. *)
From Verif Require Import M_Base M_Tables M_Area M_Eddy M_Detect M_Cntr M_Extract M_Window.
Open Scope Z_scope.

(** self.rawdata: snapshots along a time dimension, or (no dimension recognised as time, 106-117) one snapshot *)
Inductive raw := Series (l : list (grid num)) | Single (g : grid num).

(** A TrackEddy object.  Functions stand for the numerical parts; each is a function of its arguments only.
    t_filter: _filter_data_ with the object's filter settings (decorators.py 58-68); [Ok None] is the None that the time filter leaves in self.data2track.
    t_surface field level contour: Fit_Surface on the data near the contour (352-355): parameters, and coordinates and values of the fitted surface.
    t_tree, t_query: the two uses of BallTree; t_keep: the version of pandas (M_Tables.concat);
    t_garbage: contents of the memory that the contour tracer allocates and does not initialise, for each call. *)
Record tracker := mkTracker {
  t_data : raw; t_X : grid Q; t_Y : grid Q;
  t_filter : grid num -> res (option (grid num));
  t_flops : fops num; t_rossby : num -> num; t_fit_ellipse : contour -> res (contour * (num * num * num));
  t_eccentricity : num -> num -> num; t_similarity : contour -> contour -> res num;
  t_surface : grid num -> num -> contour -> res (list num * (mat num * mat num * mat num));
  t_tree : list (Q * Q) -> list (Q * Q) -> list nat;
  t_query : list (Q * Q) -> list (Q * Q) -> list (Q * nat);
  t_keep : bool; t_garbage : mat num -> num -> Z -> cell;
  t_criteria : criteria; t_skip_gaussian_fit : bool; t_out_format : string }.

(** An array in C order *)
Definition array_of (g : grid num) : mat num := mkMat num (Z.of_nat (length g)) (Z.of_nat (width_of g)) (fun k => nth (Z.to_nat k) (List.concat g) NaN).
Definition numbers (g : grid Q) : grid num := map (map Num) g.

Section Run.
Variable o : tracker.

(** geometry.py 9-42.  The loops of the tracer get one more round than any mesh of that size needs (C64). *)
Definition rounds (z : mat num) : nat := Z.to_nat (4 * (m_cols num z * m_rows num z) + 3).
Definition vertices (i : item num) : contour := match i with Verts _ v => v | Codes _ _ => [] end.
Definition lines (x y z : mat num) (level : num) : res (list contour) :=
  do (segments, _) <- extract_contours num (f_add (t_flops o)) (f_sub (t_flops o)) (f_mul (t_flops o)) (f_div (t_flops o)) (f_cst (t_flops o) 4) ngt neqb
                        (rounds z) (t_garbage o z level) x y z level;
  Ok (map vertices segments).

(** 282.  [squeeze] (230, 234) removed a dimension of length 1, then cntr.c 1826-1832 does not find two dimensions. *)
Definition contours_at (d : option (grid num)) (level : num) : res (list contour) :=
  match d with
  | None => Err AttributeError
  | Some f => if ((length f =? 1)%nat || (width_of f =? 1)%nat)%bool then Err ValueError
              else lines (array_of (numbers (t_X o))) (array_of (numbers (t_Y o))) (array_of f) level
  end.
(** 352-363 *)
Definition fitted (f : grid num) (level : num) (c : contour) : res (list num * list contour) :=
  do (g, s) <- t_surface o f level c;
  do cs <- lines (fst (fst s)) (snd (fst s)) (snd s) level;
  Ok (g, cs).
(** 275-396 *)
Definition detect_level (d : option (grid num)) (level : num) (st : state) : res (frame * list (Z * dict)) * state :=
  match contours_at d level, d with
  | Ok cs, Some f =>
      detect_one_level (t_flops o) (t_rossby o) (t_fit_ellipse o) (t_eccentricity o) (t_similarity o)
        (data_in_contour (t_tree o) (t_X o) (t_Y o) f) (fitted f level) level (t_criteria o) (t_skip_gaussian_fit o) cs st
  | Ok _, None => (Err AttributeError, st)
  | Err e, _ => (Err e, st)
  end.

(** 229-234: [isel] counts from the end when the step is negative *)
Definition select (l : list (grid num)) (t : Z) : res (grid num) :=
  let n := Z.of_nat (length l) in
  let i := if t <? 0 then t + n else t in
  if i <? 0 then Err IndexError else match nth_error l (Z.to_nat i) with Some g => Ok g | None => Err IndexError end.
(** 229-236: self.data2track at a step *)
Definition data2track (t : Z) : res (option (grid num)) :=
  do g <- match t_data o with Series l => select l t | Single g => Ok g end; t_filter o g.
(** 226-264; lin_levels is None unless given (228 raises TypeError) *)
Definition snapshot (levels : option (list num)) (t : Z) (st : state) : res frame * state :=
  match levels with
  | None => (Err TypeError, st)
  | Some ls => match data2track t with
               | Err e => (Err e, st)
               | Ok d => detect_snapshot (t_query o) (t_keep o) (detect_level d) ls st
               end
  end.

(** 194-224, as M_Tables.tt_loop, with the collected data *)
Section Loop.
Variable levels : option (list num).
Variable online : bool.
Variable tf : option Z.
Variable ntimes : Z.
Fixpoint loop (times : list Z) (track : frame) (files : list (Z * frame)) (st : state) : outcome * state :=
  match times with
  | [] => ((files, Ok track), st)
  | t :: rest =>
      match snapshot levels t st with
      | (Err e, st') => ((files, Err e), st')
      | (Ok cur, st') =>
          if empty cur then loop rest track files st'
          else if empty track then loop rest (set_index (isort le_id_time_idx (rows (stamp t cur)))) files st'
          else
            let cur' := stamp t cur in
            if online then
              match track_online (t_query o) (t_keep o) track cur' t ntimes with
              | Err e => ((files, Err e), st')
              | Ok tr => match print_check tf t with
                         | Err e => ((files, Err e), st')
                         | Ok _ => loop rest tr files st'
                         end
              end
            else
              match store_effect (t_out_format o) with
              | Err e => ((files, Err e), st')
              | Ok w =>
                  let files' := if w then (files ++ [(t, cur')])%list else files in
                  match print_check tf t with
                  | Err e => ((files', Err e), st')
                  | Ok _ => loop rest track files' st'
                  end
              end
      end
  end.
End Loop.

(** 185-188: [self.Dataset[""]] raises KeyError when there is no time dimension *)
Definition times (t0 : Z) (tf : option Z) : res (list Z) :=
  match t_data o, tf with
  | Series l, _ => Ok (tt_times (Z.of_nat (length l)) t0 tf)
  | Single _, None => Err KeyError
  | Single _, Some n => if n =? 0 then Err KeyError else Ok (tt_times 0 t0 tf)
  end.
(** 181-224 *)
Definition tracking (t0 : Z) (tf : option Z) (levels : option (list num)) (ntimes : Z) (online : bool) (st : state) : outcome * state :=
  match times t0 tf with
  | Err e => (([], Err e), st)
  | Ok ts => loop levels online tf ntimes ts empty_frame [] st
  end.
End Run.

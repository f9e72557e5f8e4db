(** Eddy tables and the table functions of /repo/trackeddy/utils.py. *)
From Verif Require Import M_Base.
Open Scope Z_scope.

(** The columns of an eddy table.  The five columns that utils.py reads are named; all the other numeric columns are
    in [others].  (Eddy.to_dict, eddy.py 41-134, lists all of them.) *)
Record cols := mkCols {
  maxima_y : num; maxima_x : num; radius_eddy : num;
  contour_ellipse_error : num; contour_gaussian_error : num;
  others : list num }.

(** One row of a table: MultiIndex labels ("identifier", "time", "index") and the columns.  In tables where "time" is
    a column or absent (trackeddy.py 197, 226-264) [r_time] still holds its value (0 when absent). *)
Record row := mkRow { r_id : Z; r_time : Z; r_idx : Z; r_cols : cols }.

(** A DataFrame: its rows in order, and [index.levels[0]], the labels of level "identifier".
    In pandas a row stores a code pointing into this list; the model stores the label itself, so the code of a row is the
    position of its label.  The list may contain labels that no row uses. *)
Record frame := mkFrame { rows : list row; ids : list Z }.

Definition used (rs : list row) : list Z := sort_uniq (map r_id rs).

(** [df.reset_index().set_index([...])]: levels are rebuilt from the labels in use, sorted. *)
Definition set_index (rs : list row) : frame := mkFrame rs (used rs).

Definition relabel (r : row) (i : Z) : row := mkRow i (r_time r) (r_idx r) (r_cols r).
Definition set_time (t : Z) (r : row) : row := mkRow (r_id r) t (r_idx r) (r_cols r).

(** [df.index.set_levels(new, level=0)]: codes stay, labels are replaced; ValueError when a code has no label. *)
Definition relabel_code (old new : list Z) (r : row) : option row :=
  match index_of (r_id r) old with
  | None => None
  | Some c => option_map (relabel r) (nth_error new c)
  end.
Definition set_levels (new : list Z) (f : frame) : res frame :=
  match sequence (map (relabel_code (ids f) new) (rows f)) with
  | Some rs => Ok (mkFrame rs new)
  | None => Err ValueError
  end.

(** [df.rename(index={k: v}, level=0)]: a missing k is ignored; the levels are rebuilt. *)
Definition rename_id (k v : Z) (f : frame) : frame :=
  set_index (map (fun r => if r_id r =? k then relabel r v else r) (rows f)).

(** [df.drop(labels, level=0)]: KeyError when no row carries one of the labels; unused labels stay in the levels. *)
Definition mem (x : Z) (l : list Z) : bool := existsb (Z.eqb x) l.
Definition drop_ids (ks : list Z) (f : frame) : res frame :=
  if existsb (fun r => mem (r_id r) ks) (rows f)
  then Ok (mkFrame (filter (fun r => negb (mem (r_id r) ks)) (rows f)) (ids f))
  else Err KeyError.

(** [df.xs(0, level="index")]: the rows whose contour index is 0. *)
Definition xs_index0 (f : frame) : res (list row) :=
  match filter (fun r => r_idx r =? 0) (rows f) with [] => Err KeyError | l => Ok l end.

(** [df.xs((k, 0), level=["identifier", "index"])] *)
Definition xs_id_index0 (k : Z) (f : frame) : res (list row) :=
  match filter (fun r => (r_id r =? k) && (r_idx r =? 0)) (rows f) with [] => Err KeyError | l => Ok l end.

(** [df.loc[k]] for a label of level 0: KeyError when absent. *)
Definition loc_check (k : Z) (f : frame) : res unit :=
  if existsb (fun r => r_id r =? k) (rows f) then Ok tt else Err KeyError.

(** [df.xs(t, level="time").index.levels[0]]: KeyError when no row has that time.  [xs] slices the MultiIndex, which
    keeps all labels of level 0, also those without a row at time t. *)
Definition xs_time_levels (t : Z) (f : frame) : res (list Z) :=
  if existsb (fun r => r_time r =? t) (rows f) then Ok (ids f) else Err KeyError.

(** [pd.concat([p, n])]: rows are appended.  MultiIndex.append keeps the unused labels since pandas 2.1 ([keep = true])
    and rebuilds the levels from the labels in use before ([keep = false]). *)
Definition concat (keep : bool) (p n : frame) : frame :=
  let rs := rows p ++ rows n in
  mkFrame rs (if keep then sort_uniq (ids p ++ ids n) else used rs).

(** Sort orders of [sort_index]. *)
Definition le_id_idx (a b : row) : bool :=
  (r_id a <? r_id b) || ((r_id a =? r_id b) && (r_idx a <=? r_idx b)).
Definition le_id_time_idx (a b : row) : bool :=
  (r_id a <? r_id b) || ((r_id a =? r_id b) &&
   ((r_time a <? r_time b) || ((r_time a =? r_time b) && (r_idx a <=? r_idx b)))).

(** ** utils.py *)

Section Oracle.
(** [query P N]: what [BallTree(np.deg2rad(P), metric="haversine").query(np.deg2rad(N))] answers: for each point of N
    the distance (radians) and the position in P of the neighbour it found. *)
Variable query : list (Q * Q) -> list (Q * Q) -> list (Q * nat).

Definition coord (r : row) : option (Q * Q) :=
  match maxima_y (r_cols r), maxima_x (r_cols r) with
  | Num y, Num x => Some (y, x)
  | _, _ => None
  end.

(** [np.where(distance * 6371 - radius < 0)] (utils.py 109-114), row numbers only: position [i] onwards. *)
Fixpoint within (i : nat) (ans : list (Q * nat)) (rad : list num) : list nat :=
  match ans, rad with
  | (d, _) :: ans', r :: rad' =>
      if nlt (nsub (Num (d * 6371)) r) (Num 0) then i :: within (S i) ans' rad' else within (S i) ans' rad'
  | _, _ => []
  end.

(** utils.py 96-115 [_detect_nearest].  [BallTree] raises ValueError on NaN coordinates. *)
Definition detect_nearest (p n : frame) : res (list nat * list nat) :=
  do rp <- xs_index0 p;
  do rn <- xs_index0 n;
  match sequence (map coord rp), sequence (map coord rn) with
  | Some cp, Some cn =>
      let ans := query cp cn in
      Ok (map snd ans, within 0 ans (map (fun r => radius_eddy (r_cols r)) rn))
  | _, _ => Err ValueError
  end.

(** [Index.max()] of a non-empty integer index.  (An empty one would give NaN; p is never empty here.) *)
Definition zmax (l : list Z) : option Z :=
  match l with [] => None | x :: t => Some (fold_left Z.max t x) end.

(** utils.py 23-33 [_update_counter] *)
Definition update_counter (p n : frame) : res (frame * Z) :=
  match zmax (ids p) with
  | None => Err ValueError
  | Some prev => do n' <- set_levels (map (fun i => i + prev + 1) (ids n)) n; Ok (n', prev)
  end.

(** utils.py 9-20 [_rename_eddies_in_time]; [index[near][0]] raises IndexError out of range. *)
Fixpoint rename_eddies_in_time (cur : frame) (index : list nat) (nearest : list nat) (prev : Z) : res frame :=
  match nearest with
  | [] => Ok cur
  | near :: t =>
      match nth_error index near with
      | None => Err IndexError
      | Some k => rename_eddies_in_time (rename_id (Z.of_nat near + prev + 1) (Z.of_nat k) cur) index t prev
      end
  end.

(** Truth value of [a > b] for two numpy arrays: one element each, otherwise ValueError (ambiguous).
    The arrays here are the values of one column for the rows selected by [xs], never empty. *)
Definition array_gt (a b : list num) : res bool :=
  match a, b with
  | [x], [y] => Ok (ngt x y)
  | _, _ => Err ValueError
  end.

(** utils.py 44-69, the loop of [_update_better_eddy]; returns the new current table and the replaced identifiers. *)
Fixpoint better_loop (p n : frame) (index nearest : list nat) (prev : Z) (replaced : list Z) : res (frame * list Z) :=
  match nearest with
  | [] => Ok (n, replaced)
  | d :: t =>
      let sc := Z.of_nat d + prev + 1 in
      match nth_error index d with
      | None => Err IndexError
      | Some kn =>
          let k := Z.of_nat kn in
          do _ <- loc_check k p;
          do _ <- loc_check sc n;
          do pe <- xs_id_index0 k p;
          do ce <- xs_id_index0 sc n;
          do g1 <- array_gt (map (fun r => contour_ellipse_error (r_cols r)) pe)
                            (map (fun r => contour_ellipse_error (r_cols r)) ce);
          do g2 <- (if g1 then array_gt (map (fun r => contour_gaussian_error (r_cols r)) pe)
                                        (map (fun r => contour_gaussian_error (r_cols r)) ce)
                    else Ok false);
          if g2 then better_loop p (rename_id sc k n) index t prev (replaced ++ [k])
          else do n' <- drop_ids [sc] n; better_loop p n' index t prev replaced
      end
  end.

(** utils.py 36-71 [_update_better_eddy] *)
Definition update_better_eddy (p n : frame) (index nearest : list nat) : res (frame * frame) :=
  do (n1, prev) <- update_counter p n;
  do (n2, replaced) <- better_loop p n1 index nearest prev [];
  match replaced with
  | [] => Ok (p, n2)
  | _ => do p' <- drop_ids replaced p; Ok (p', n2)
  end.

(** utils.py 74-93 [_merge_reindex_eddies] *)
Definition merge_reindex (keep : bool) (p n : frame) : res frame :=
  let m := concat keep p n in
  do f <- set_levels (zseq (length (ids m))) (set_index (rows m));
  Ok (mkFrame (isort le_id_idx (rows f)) (ids f)).

(** utils.py 157-166 [_get_non_duplicated_identifiers]: the labels that occur exactly once. *)
Definition non_duplicated (l : list Z) : list Z :=
  filter (fun v => Nat.eqb (count_occ Z.eq_dec l v) 1) (sort_uniq l).

(** [df.loc[labels]] for a list of labels of level 0: for each label its rows; KeyError when a label has none. *)
Fixpoint loc_list (ks : list Z) (rs : list row) : res (list row) :=
  match ks with
  | [] => Ok []
  | k :: t =>
      match filter (fun r => r_id r =? k) rs with
      | [] => Err KeyError
      | l => do rest <- loc_list t rs; Ok (l ++ rest)
      end
  end.

(** [.groupby("identifier").max()["time"].values] (utils.py 201-207) *)
Definition max_times (rs : list row) : list Z :=
  map (fun k => fold_left Z.max (map r_time (filter (fun r => r_id r =? k) rs)) 
                (hd 0 (map r_time (filter (fun r => r_id r =? k) rs)))) (used rs).

(** [GroupBy.last]: the last value of the group that is not missing. *)
Definition last_num (l : list num) : num :=
  fold_left (fun acc x => if is_nan x then acc else x) l NaN.
(** Column-wise [last] of a group ([others] has the same number of columns in all rows). *)
Definition last_cols (l : list cols) : cols :=
  mkCols (last_num (map maxima_y l)) (last_num (map maxima_x l)) (last_num (map radius_eddy l))
         (last_num (map contour_ellipse_error l)) (last_num (map contour_gaussian_error l))
         (map (fun j => last_num (map (fun c => nth j (others c) NaN) l))
              (seq 0 (fold_left Nat.max (map (fun c => length (others c)) l) O))).

(** [.groupby(["identifier", "index"]).last("time")] and the ["time"] column set from [times[identifier]]
    (utils.py 209-219).  Group keys are sorted. *)
Definition group_last (times : list Z) (rs : list row) : res (list row) :=
  match sequence
    (flat_map (fun k =>
       let g := filter (fun r => r_id r =? k) rs in
       map (fun i =>
         option_map (fun t => mkRow k t i (last_cols (map r_cols (filter (fun r => r_idx r =? i) g))))
                    (if k <? 0 then None else nth_error times (Z.to_nat k)))
         (sort_uniq (map r_idx g)))
       (used rs))
  with Some l => Ok l | None => Err IndexError end.

(** utils.py 181-195: the loop back in time; [acc] are the labels collected so far. *)
Fixpoint unlink_loop (f : frame) (last : list Z) (times : list Z) (acc : list Z) : res (list Z) :=
  match times with
  | [] => Ok acc
  | t :: rest =>
      do prev <- xs_time_levels t f;
      unlink_loop f last rest (acc ++ non_duplicated (last ++ prev))
  end.

(** utils.py 169-225 [unlink_eddies_in_previous_times].  The final [reindex] (221-223) is computed by the code but its
    result is not used; it is left out. *)
Definition unlink (f : frame) (time ntimes : Z) : res frame :=
  let ntimes := if time <? ntimes then time else ntimes in
  do last <- xs_time_levels time f;
  do acc <- unlink_loop f last (zrange (time - ntimes) time) last;
  let labels := sort_uniq acc in
  do sel <- loc_list labels (rows f);
  do g <- group_last (max_times sel) sel;
  Ok (set_index g).

(** utils.py 228-256 [track_online] *)
Definition track_online (keep : bool) (track cur : frame) (time ntimes : Z) : res frame :=
  do prev_t <- unlink track (time - 1) ntimes;
  do (index, nearest) <- detect_nearest prev_t cur;
  do (cur1, prev) <- update_counter prev_t cur;
  do cur2 <- rename_eddies_in_time cur1 index nearest prev;
  do m <- merge_reindex keep track cur2;
  Ok (set_index (isort le_id_time_idx (rows m))).

(** ** trackeddy.py 226-264: the level loop of [_detect_snapshot] *)
Definition empty (f : frame) : bool := match rows f with [] => true | _ => false end.
Definition empty_frame : frame := mkFrame [] [].

Fixpoint level_loop (keep : bool) (joint : frame) (levels : list (res frame)) : res frame :=
  match levels with
  | [] => Ok joint
  | lv :: rest =>
      do cur <- lv;
      if empty cur then level_loop keep joint rest
      else if empty joint then level_loop keep cur rest
      else
        do (index, nearest) <- detect_nearest joint cur;
        do (j, c) <- update_better_eddy joint cur index nearest;
        do m <- merge_reindex keep j c;
        level_loop keep m rest
  end.

(** ** trackeddy.py 181-224: [time_tracking] *)

(** The times visited (185-188): [not tf] holds for None and for 0. *)
Definition tt_times (len : Z) (t0 : Z) (tf : option Z) : list Z :=
  match tf with
  | None => zrange 0 len
  | Some tf' => if tf' =? 0 then zrange 0 len else zrange t0 tf'
  end.

(** printfunc.py 23-52 [timepercentprint], errors only: [float(i+1)/maxv] with maxv None (TypeError) or 0, and
    [etime / percent] with percent 0. *)
Definition print_check (maxv : option Z) (i : Z) : res unit :=
  match maxv with
  | None => Err TypeError
  | Some m => if (m =? 0) || (i + 1 =? 0) then Err ZeroDivisionError else Ok tt
  end.

(** [current_time.reset_index().set_index(["identifier","time","index"])] after [current_time["time"] = time]. *)
Definition stamp (t : Z) (f : frame) : frame := set_index (map (set_time t) (rows f)).

(** What [store_snapshot] does for a format string (utils.py 259-269): one file, nothing, or an exception
    ([to_hdf] needs a key argument that is not passed). *)
Definition store_effect (fmt : string) : res bool :=
  if (String.eqb fmt "csv" || String.eqb fmt "json")%bool then Ok true
  else if String.eqb fmt "hd5" then Err TypeError else Ok false.

(** Result of a run: the files written (time of the snapshot and its table) and the returned table or exception. *)
Definition outcome := (list (Z * frame) * res frame)%type.

Section Run.
Variable keep : bool.
Variable detect : Z -> res frame.   (* _detect_snapshot(time, lin_levels) *)
Variable online : bool.
Variable fmt : string.              (* self.out_format *)
Variable tf : option Z.
Variable ntimes : Z.

Fixpoint tt_loop (times : list Z) (track : frame) (files : list (Z * frame)) : outcome :=
  match times with
  | [] => (files, Ok track)
  | t :: rest =>
      match detect t with
      | Err e => (files, Err e)
      | Ok cur =>
          if empty cur then tt_loop rest track files
          else if empty track then
            tt_loop rest (set_index (isort le_id_time_idx (rows (stamp t cur)))) files
          else
            let cur' := stamp t cur in
            if online then
              match track_online keep track cur' t ntimes with
              | Err e => (files, Err e)
              | Ok tr =>
                  match print_check tf t with
                  | Err e => (files, Err e)
                  | Ok _ => tt_loop rest tr files
                  end
              end
            else
              match store_effect fmt with
              | Err e => (files, Err e)
              | Ok w =>
                  let files' := if w then files ++ [(t, cur')] else files in
                  match print_check tf t with
                  | Err e => (files', Err e)
                  | Ok _ => tt_loop rest track files'
                  end
              end
      end
  end.
End Run.

(** [time_tracking(t0, tf, lin_levels, ntimes, online_track)] on a dataset with [len] time steps. *)
Definition time_tracking (keep : bool) (detect : Z -> res frame) (online : bool) (fmt : string)
    (len t0 : Z) (tf : option Z) (ntimes : Z) : outcome :=
  tt_loop keep detect online fmt tf ntimes (tt_times len t0 tf) empty_frame [].
End Oracle.

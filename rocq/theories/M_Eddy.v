(** The Eddy object and its tables: /repo/trackeddy/eddy.py, and the decorators of /repo/trackeddy/decorators.py that
    collect them. *)
From Verif Require Import M_Base M_Tables.
Open Scope Z_scope.

(** *** numpy arrays *)
Inductive value := VNum (x : num) | VStr (s : string) | VNone.
(** Shape and elements in C order.  Shape [] is a 0-d array. *)
Record arr := mkArr { shape : list nat; data : list value }.
Definition scalar (v : value) : arr := mkArr [] [v].
Definition vector (l : list num) : arr := mkArr [length l] (map VNum l).
(** [attr.squeeze()] *)
Definition squeeze (a : arr) : arr := mkArr (filter (fun n => negb (Nat.eqb n 1)) (shape a)) (data a).

(** A value of the dictionary: 0-d / 1-d / higher. *)
Inductive colval := CScalar (v : value) | CVec (l : list value) | CMat.
Definition dict := list (string * colval).

(** [d[k] = v]: an existing key keeps its place and gets the new value. *)
Fixpoint dset (k : string) (v : colval) (d : dict) : dict :=
  match d with
  | [] => [(k, v)]
  | (k', v') :: t => if String.eqb k k' then (k', v) :: t else (k', v') :: dset k v t
  end.
Definition dget (k : string) (d : dict) : option colval :=
  option_map snd (find (fun kv => String.eqb k (fst kv)) d).

(** [attr[:, j]] of a 2-d array *)
Definition column (a : arr) (j : nat) : res colval :=
  match shape a with
  | [r; c] => if (j <? c)%nat
              then match sequence (map (fun i => nth_error (data a) (i * c + j)) (seq 0 r)) with
                   | Some l => Ok (CVec l) | None => Err IndexError end
              else Err IndexError
  | _ => Err IndexError
  end.
(** [attr[k]] of a 1-d or 2-d array *)
Definition item (a : arr) (k : nat) : res colval :=
  match shape a with
  | [n] => if (k <? n)%nat then match nth_error (data a) k with Some v => Ok (CScalar v) | None => Err IndexError end
           else Err IndexError
  | [n; c] => if (k <? n)%nat then Ok (CVec (firstn c (skipn (k * c) (data a)))) else Err IndexError
  | _ => Err IndexError
  end.
Definition set_items (names : list string) (a : arr) (d : dict) : res dict :=
  fold_left (fun rd kn => do d' <- rd; do v <- item a (fst kn); Ok (dset (snd kn) v d'))
            (combine (seq 0 (length names)) names) (Ok d).

(** eddy.py 108-132: the [match property] of [to_dict].  [None] = no case. *)
Definition named_items (property : string) : option (list string) :=
 (  if String.eqb property "ellipse_params" then Some ["ellipse_params_a"; "ellipse_params_b"; "ellipse_params_theta"]
  else if String.eqb property "contour_center" then Some ["contour_x"; "contour_y"]
  else if String.eqb property "eddy_maxima" then Some ["maxima"; "maxima_y"; "maxima_x"]
  else if String.eqb property "gaussian_params" then
    Some ["gaussian_params_x"; "gaussian_params_y"; "gaussian_params_sigma_x"; "gaussian_params_sigma_y"; "gaussian_params_theta"]
  else None)%string.

(** eddy.py 91-132: one property. *)
Definition put_property (property : string) (a0 : arr) (d : dict) : res dict :=
  let a := squeeze a0 in
  match shape a with
  | [] => match data a with v :: _ => Ok (dset property (CScalar v) d) | [] => Err IndexError end
  | _ :: _ :: _ :: _ => Ok d
  | s =>
      if (Nat.eqb (length s) 2 && existsb (Nat.eqb 2) s)%bool then
        do x <- column a 0; do y <- column a 1;
        Ok (dset "contour_path_y" y (dset "contour_path_x" x d))
      else match named_items property with
           | Some names => set_items names a d
           | None => Err ValueError
           end
  end.

(** eddy.py 41-134 [to_dict]: [attrs p] is [getattr(self, p)] as an array. *)
Definition to_dict (attrs : string -> arr) (properties : list string) : res dict :=
  fold_left (fun rd p => do d <- rd; put_property p (attrs p) d) properties (Ok []).

(** eddy.py 73-88 *)
Definition default_properties : list string :=
  ["identifier"; "contour"; "level"; "area_eddy"; "radius_eddy"; "ellipse_params"; "contour_ellipse_error"; "ellipse_eccen";
   "contour_center"; "eddy_sign"; "eddy_maxima"; "gaussian_params"; "contour_gaussian_error"]%string.
(** eddy.py 197-208 *)
Definition discarded_properties : list string :=
  ["reason"; "level"; "area_eddy"; "radius_eddy"; "contour_ellipse_error"; "contour_center"; "ellipse_eccen"; "eddy_sign";
   "eddy_maxima"; "contour_gaussian_error"]%string.

(** *** the attributes of an Eddy (eddy.py 19-38), as arrays.  The four attributes that no table uses are left out. *)
Record eddy_obj := mkEddy {
  a_contour : arr; a_level : arr; a_area : arr; a_radius : arr; a_ellipse_params : arr; a_ellipse_error : arr;
  a_eccen : arr; a_center : arr; a_sign : arr; a_maxima : arr; a_gauss_params : arr; a_gauss_error : arr }.

(** [getattr(self, property)]; [extra] holds identifier or reason.  Any other name is an AttributeError in Python; the model
    is only applied to the two lists above. *)
Definition attrs (e : eddy_obj) (extra : arr) (p : string) : arr :=
  if String.eqb p "contour" then a_contour e
  else if String.eqb p "level" then a_level e
  else if String.eqb p "area_eddy" then a_area e
  else if String.eqb p "radius_eddy" then a_radius e
  else if String.eqb p "ellipse_params" then a_ellipse_params e
  else if String.eqb p "contour_ellipse_error" then a_ellipse_error e
  else if String.eqb p "ellipse_eccen" then a_eccen e
  else if String.eqb p "contour_center" then a_center e
  else if String.eqb p "eddy_sign" then a_sign e
  else if String.eqb p "eddy_maxima" then a_maxima e
  else if String.eqb p "gaussian_params" then a_gauss_params e
  else if String.eqb p "contour_gaussian_error" then a_gauss_error e
  else extra.

(** [pd.DataFrame.from_dict(d)] without index: all 1-d columns must have one length, at least one must exist; columns of more
    dimensions are refused; scalars are repeated.  [table_length] is that length. *)
Fixpoint table_length_aux (acc : option nat) (d : dict) : res nat :=
  match d with
  | [] => match acc with Some n => Ok n | None => Err ValueError end
  | (_, CScalar _) :: t => table_length_aux acc t
  | (_, CMat) :: _ => Err ValueError
  | (_, CVec l) :: t =>
      match acc with
      | None => table_length_aux (Some (length l)) t
      | Some n => if Nat.eqb n (length l) then table_length_aux acc t else Err ValueError
      end
  end.
Definition table_length (d : dict) : res nat := table_length_aux None d.

(** Entry of row i. *)
Definition cell (i : nat) (c : colval) : option value :=
  match c with CScalar v => Some v | CVec l => nth_error l i | CMat => None end.
(** Numeric content of a cell; objects (None, strings) count as missing. *)
Definition as_num (v : value) : num := match v with VNum x => x | _ => NaN end.
Definition num_cell (d : dict) (i : nat) (k : string) : option num :=
  match dget k d with Some c => option_map as_num (cell i c) | None => None end.
(** The five columns that utils.py reads, by name, and all the others in table order. *)
Definition named_columns : list string :=
  ["identifier"; "maxima_y"; "maxima_x"; "radius_eddy"; "contour_ellipse_error"; "contour_gaussian_error"]%string.
Definition cols_at (d : dict) (i : nat) : option cols :=
  match num_cell d i "maxima_y", num_cell d i "maxima_x", num_cell d i "radius_eddy",
        num_cell d i "contour_ellipse_error", num_cell d i "contour_gaussian_error",
        sequence (map (fun kv => option_map as_num (cell i (snd kv)))
                      (filter (fun kv => negb (existsb (String.eqb (fst kv)) named_columns)) d)) with
  | Some y, Some x, Some r, Some ee, Some ge, Some o => Some (mkCols y x r ee ge o)
  | _, _, _, _, _, _ => None
  end.

(** eddy.py 159-176 [store] with [to_table] (136-153): the rows of one eddy.  The column "identifier" is the given id and
    "index" numbers the rows (reset_index).  A missing column would be a KeyError in utils.py; here it is one at once. *)
Definition store_rows (e : eddy_obj) (id : Z) : res (list row) :=
  do d <- to_dict (attrs e (scalar (VNum (Num (inject_Z id))))) default_properties;
  do n <- table_length d;
  match sequence (map (fun i => option_map (mkRow id 0 (Z.of_nat i)) (cols_at d i)) (seq 0 n)) with
  | Some rs => Ok rs
  | None => Err KeyError
  end.

(** eddy.py 178-213 [discarded]: one row labelled id ([pd.DataFrame(dict, index=[id])]): vectors must have length 1. *)
Definition discard_row (e : eddy_obj) (reason : string) (id : Z) : res (list (Z * dict)) :=
  do d <- to_dict (attrs e (scalar (VStr reason))) discarded_properties;
  if forallb (fun kv => match snd kv with CScalar _ => true | CVec l => Nat.eqb (length l) 1 | CMat => false end) d
  then Ok [(id, d)] else Err ValueError.

(** decorators.py 6-38 [eddy_identifier]: the counter and the collected table.  They live in the decorated function, that is,
    in the process; the initial DataFrame({"": []}) is the empty list.  Tables returned by the two functions are never empty,
    so replacing an empty [df_store] and concatenating are the same. *)
Record collector (A : Type) := mkColl { calls : Z; df_store : list A }.
Arguments mkColl {A}. Arguments calls {A}. Arguments df_store {A}.
Definition fresh {A} : collector A := mkColl 0 [].
Definition collect {A} (f : Z -> res (list A)) (s : collector A) : res (list A) * collector A :=
  match f (calls s) with
  | Err e => (Err e, s)
  | Ok t => let df := df_store s ++ t in (Ok df, mkColl (calls s + 1) df)
  end.

(** State of the process: the collectors of [Eddy.store] and [Eddy.discarded]. *)
Definition state := (collector row * collector (Z * dict))%type.
Definition initial_state : state := (fresh, fresh).
Definition store (e : eddy_obj) (s : state) : res (list row) * state :=
  let '(r, c) := collect (store_rows e) (fst s) in (r, (c, snd s)).
Definition discarded (e : eddy_obj) (reason : string) (s : state) : res (list (Z * dict)) * state :=
  let '(r, c) := collect (discard_row e reason) (snd s) in (r, (fst s, c)).
(** eddy.py 215-221 [exit] *)
Definition exit_state (s : state) : state := initial_state.

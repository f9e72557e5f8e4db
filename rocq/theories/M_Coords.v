(** Coordinates of the data: /repo/trackeddy/trackeddy.py 66-123.  Values of coordinates are of any type A. *)
From Verif Require Import M_Base.
Open Scope string_scope.

(** [sub in s] for Python strings *)
Fixpoint contains (sub s : string) : bool :=
  String.prefix sub s || match s with EmptyString => false | String _ s' => contains sub s' end.

(** self.coords, 105; the keys "x_var" and "y_var" are absent (None) until 120-123 set them *)
Record coords := mkCoords { c_time : string; c_x : string; c_y : string; c_xvar : option string; c_yvar : option string }.
Definition no_coords : coords := mkCoords "" "" "" None None.
(** 111-117 *)
Definition get_dims (c : coords) (n : string) : coords :=
  if (contains "time" n || String.eqb n "t")%bool then mkCoords n (c_x c) (c_y c) (c_xvar c) (c_yvar c)
  else if (contains "lon" n || String.eqb n "x")%bool then mkCoords (c_time c) n (c_y c) (c_xvar c) (c_yvar c)
  else if (contains "lat" n || String.eqb n "y")%bool then mkCoords (c_time c) (c_x c) n (c_xvar c) (c_yvar c)
  else c.
(** 119-123 *)
Definition get_vars (c : coords) (n : string) : coords :=
  if (contains "lon" n || String.eqb n "x")%bool then mkCoords (c_time c) (c_x c) (c_y c) (Some n) (c_yvar c)
  else if (contains "lat" n || String.eqb n "y")%bool then mkCoords (c_time c) (c_x c) (c_y c) (c_xvar c) (Some n)
  else c.
(** 104-109: [dims] are the dimensions of the tracked variable, [vars] the data variables of the dataset, in order *)
Definition identify_coords (dims vars : list string) : coords := fold_left get_vars vars (fold_left get_dims dims no_coords).

(** What [Dataset[name]] holds: by number of dimensions. *)
Inductive array (A : Type) := OneD (v : list A) | TwoD (v : list (list A)) | OtherD (n : nat).
Arguments OneD {A}. Arguments TwoD {A}. Arguments OtherD {A}.
(** 83-85: [np.meshgrid(x, y)] *)
Definition meshgrid {A} (xs ys : list A) : list (list A) * list (list A) := (map (fun _ => xs) ys, map (fun y => map (fun _ => y) xs) ys).
(** 66-100; [get] is the dataset, None is KeyError *)
Definition check_coords {A} (get : string -> option (array A)) (c : coords) : res (list (list A) * list (list A)) :=
  do names <- match c_xvar c, c_yvar c with
              | Some x, Some y => Ok (x, y)
              | _, _ => if (negb (String.eqb (c_x c) "") && negb (String.eqb (c_y c) ""))%bool then Ok (c_x c, c_y c) else Err ValueError
              end;
  match get (fst names), get (snd names) with
  | Some (OneD xs), Some (OneD ys) => Ok (meshgrid xs ys)
  | Some (TwoD X), Some (TwoD Y) => Ok (X, Y)
  | Some _, Some _ => Err ValueError
  | _, _ => Err KeyError
  end.
(** 39-44: the part of __init__ that sets self.coords, self.X and self.Y *)
Definition init_coords {A} (dims vars : list string) (get : string -> option (array A)) : res (coords * (list (list A) * list (list A))) :=
  let c := identify_coords dims vars in do g <- check_coords get c; Ok (c, g).

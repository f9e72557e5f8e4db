(** Writing snapshots: store_snapshot, /repo/trackeddy/utils.py 259-269. *)
From Coq Require Import Ascii.
From Verif Require Import M_Base.
Open Scope string_scope.
Open Scope Z_scope.
Local Infix "++" := append (right associativity, at level 60).

Definition digit (d : Z) : ascii := ascii_of_N (Z.to_N (48 + d)).
(** The k last decimal digits of n, most significant first. *)
Fixpoint digits (k : nat) (n : Z) : string :=
  match k with O => EmptyString | S k' => digits k' (n / 10) ++ String (digit (n mod 10)) EmptyString end.
(** Number of decimal digits of n >= 0; the number of binary digits is budget enough. *)
Fixpoint width_aux (fuel : nat) (n : Z) : nat :=
  match fuel with O => 1%nat | S f => if n <? 10 then 1%nat else S (width_aux f (n / 10)) end.
Definition width (n : Z) : nat := width_aux (S (Z.to_nat (Z.log2 n))) n.
(** ["{0:05}".format(n)]: decimal, padded with zeros to five characters, the sign included (utils.py 261). *)
Definition format05 (n : Z) : string :=
  if n <? 0 then "-" ++ digits (Nat.max 4 (width (- n))) (- n) else digits (Nat.max 5 (width n)) n.

(** The file name (utils.py 261). *)
Definition snapshot_name (time : Z) (fmt : string) : string := "identified_eddies_" ++ format05 time ++ "." ++ fmt.

(** [os.path.join(path, name)] (posixpath) for a name that does not start with a slash. *)
Fixpoint ends_with_slash (s : string) : bool :=
  match s with
  | EmptyString => false
  | String c EmptyString => Ascii.eqb c "/"
  | String _ s' => ends_with_slash s'
  end.
Definition path_join (path name : string) : string :=
  match path with
  | EmptyString => name
  | _ => if ends_with_slash path then path ++ name else path ++ "/" ++ name
  end.
Definition snapshot_path (path : string) (time : Z) (fmt : string) : string := path_join path (snapshot_name time fmt).

(** The file system: path -> content (only the files written by the program). *)
Definition filesystem (A : Type) := string -> option A.
Definition write {A} (fs : filesystem A) (p : string) (a : A) : filesystem A :=
  fun q => if String.eqb q p then Some a else fs q.

(** [store_snapshot(track, path, time, format)] without further arguments (as called at trackeddy.py 217-219): csv and json
    write the table, [to_hdf] lacks its mandatory [key] argument, any other format falls through the [match]. *)
Definition store_snapshot {A} (fs : filesystem A) (tab : A) (path : string) (time : Z) (fmt : string) : res (filesystem A) :=
  if String.eqb fmt "csv" then Ok (write fs (snapshot_path path time fmt) tab)
  else if String.eqb fmt "json" then Ok (write fs (snapshot_path path time fmt) tab)
  else if String.eqb fmt "hd5" then Err TypeError
  else Ok fs.

(** Storing a sequence of snapshots (the offline branch of the loop, trackeddy.py 194-224, file effects only). *)
Fixpoint store_all {A} (fs : filesystem A) (path fmt : string) (snaps : list (Z * A)) : res (filesystem A) :=
  match snaps with
  | [] => Ok fs
  | (t, tab) :: rest => do fs' <- store_snapshot fs tab path t fmt; store_all fs' path fmt rest
  end.

(** An offline run as a sequence of operations on files, so that it can be stopped between any two of them. *)
From Coq Require Import Ascii String.
From Verif Require Import M_Base M_Tables M_Eddy M_Detect M_Store M_Pipeline.
Open Scope Z_scope.

(** What to_csv and to_json (called at utils.py 263-267) do to the file system: the file is opened for writing, which creates it or empties it, and then text is
    appended to it.  An operation is taken to happen at once or not at all; what was written before the process stops stays in the file (a power failure that
    loses data the system had accepted is not modelled). *)
Inductive operation : Type := Open_for_writing (p : string) | Append (p : string) (text : string).
Definition perform (fs : filesystem string) (x : operation) : filesystem string :=
  match x with
  | Open_for_writing p => write fs p EmptyString
  | Append p text => match fs p with Some before => write fs p (before ++ text)%string | None => fs end
  end.
Fixpoint performed (fs : filesystem string) (l : list operation) : filesystem string :=
  match l with [] => fs | x :: rest => performed (perform fs x) rest end.

(** The text of a table comes in pieces: [pieces] is arbitrary (csv or json, any buffer size). *)
Section Pieces.
Variable pieces : list row -> list string.
(** [store_snapshot] for one table (utils.py 259-267) *)
Definition storing (path fmt : string) (file : Z * frame) : list operation :=
  let p := snapshot_path path (fst file) fmt in
  Open_for_writing p :: map (Append p) (pieces (rows (snd file))).
(** The operations of [time_tracking] with online_track=False (trackeddy.py 194-224): its tables are stored one after the other. *)
Definition operations (path : string) (o : tracker) (t0 : Z) (tf : option Z) (levels : option (list num)) (ntimes : Z) (st : state) : list operation :=
  flat_map (storing path (t_out_format o)) (fst (fst (tracking o t0 tf levels ntimes false st))).
(** The file system when the process is stopped after k operations *)
Definition stopped_after (k : nat) (fs : filesystem string) (l : list operation) : filesystem string := performed fs (firstn k l).
End Pieces.

(** The kinds of levels that can be given to TrackEddy.time_tracking (/repo/trackeddy/trackeddy.py 181-224): a numpy array, nothing, or a Python list or tuple. *)
From Verif Require Import M_Base M_Tables M_Eddy M_Detect M_Pipeline.
Open Scope Z_scope.

Inductive levels_given := NotGiven | Array (l : list num) | Sequence (l : list num).

(** 226-242 for a list or tuple.  228: [levels != 0] is True, [levels[True]] is levels[1], so IndexError with fewer than two entries; 229-236 as for an array;
    240: [for level in levels] over a number raises TypeError. *)
Definition sequence_snapshot (o : tracker) (l : list num) (t : Z) (st : state) : res frame * state :=
  match l with
  | _ :: _ :: _ => match data2track o t with Err e => (Err e, st) | Ok _ => (Err TypeError, st) end
  | _ => (Err IndexError, st)
  end.
(** 181-224.  Since [sequence_snapshot] always raises, only the first step of the loop is written out for a list or tuple. *)
Definition tracking_given (o : tracker) (t0 : Z) (tf : option Z) (levels : levels_given) (ntimes : Z) (online : bool) (st : state) : outcome * state :=
  match levels with
  | NotGiven => tracking o t0 tf None ntimes online st
  | Array l => tracking o t0 tf (Some l) ntimes online st
  | Sequence l =>
      match times o t0 tf with
      | Err e => (([], Err e), st)
      | Ok [] => (([], Ok empty_frame), st)
      | Ok (t :: _) => match sequence_snapshot o l t st with
                       | (Err e, st') => (([], Err e), st')
                       | (Ok f, st') => (([], Ok f), st')
                       end
      end
  end.

(** Specification of whole runs in terms of runs of one step. *)
From Verif Require Import M_Base M_Tables M_Eddy M_Detect M_Pipeline S_Tracking S_Levels S_Pipeline.
Open Scope Z_scope.

(** The run over the steps t0, .., tf - 1 returned table R, having written these files. *)
Definition run_returns (o : tracker) (levels : list num) (nt : Z) (online : bool) (st : state) (t0 tf : Z) (files : list (Z * frame)) (R : frame) : Prop :=
  fst (tracking o t0 (Some tf) (Some levels) nt online st) = (files, Ok R).
(** Step t, analysed alone in a new process, gives this table *)
Definition alone (o : tracker) (levels : list num) (t : Z) (R : frame) : Prop := run_returns o levels 1 true initial_state t (t + 1) [] R.
(** Step t has eddies *)
Definition has_eddies (o : tracker) (levels : list num) (t : Z) : Prop := exists R, alone o levels t R /\ rows R <> [].

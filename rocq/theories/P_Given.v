(** C109, the part that holds: what a run does with the levels it is given *)
From Verif Require Import M_Base M_Tables M_Eddy M_Detect M_Pipeline M_Arguments.
Open Scope Z_scope.
(** Levels given as an array are the levels of the run, in their order; without levels the run chooses its own. *)
Theorem C109_array_of_levels : forall o t0 tf nt online st,
  (forall l, tracking_given o t0 tf (Array l) nt online st = tracking o t0 tf (Some l) nt online st) /\ tracking_given o t0 tf NotGiven nt online st = tracking o t0 tf None nt online st.
Proof. intros. split; reflexivity. Qed.
Print Assumptions C109_array_of_levels.

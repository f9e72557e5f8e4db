(** C120: data with a single row or a single column *)
From Coq Require Import Lia QArith.
From Verif Require Import M_Base M_Tables M_Eddy M_Detect M_Window M_Pipeline S_Detect S_Tracking S_Pipeline L_Pipeline P_Pipeline P_Levels2.
Open Scope list_scope.
Open Scope Z_scope.

Definition single_row_or_column (f : grid num) : Prop := length f = 1%nat \/ (f <> [] /\ forall row, In row f -> length row = 1%nat).

(** A run over data with a single row or a single column raises ValueError at its first step, whatever the data are, as soon as a level other than 0 is given;
    no file is written and the state of the process does not change. *)
Theorem C120_single_row_or_column_refuted : forall o t0 tf levels nt online st t rest f level,
  (forall ds, t_data o <> Single ds) -> run_steps o t0 tf = t :: rest -> field_at o t f -> single_row_or_column f -> In level levels -> ~ zero level ->
  tracking o t0 tf (Some levels) nt online st = (([], Err ValueError), st).
Proof.
  intros o t0 tf levels nt online st t rest f level Hd Hs (g & Sg & Fg) Hf Hl Hz. unfold tracking.
  destruct (times o t0 tf) as [ts|e] eqn:E; [|exfalso; unfold times in E; destruct (t_data o) as [l|ds]; [discriminate E|exact (Hd ds eq_refl)]].
  destruct (times_steps _ _ _ _ E) as [-> _]. rewrite Hs. cbn [loop].
  assert (D : data2track o t = Ok (Some f)).
  { unfold data2track. destruct (t_data o) as [l|g']; [rewrite (proj2 (select_selected l t g) Sg)|exfalso; exact (Hd g' eq_refl)]; exact Fg. }
  assert (S : snapshot o (Some levels) t st = (Err ValueError, st)).
  { unfold snapshot, detect_snapshot. rewrite D. assert (N : In level (nonzero_levels levels)).
    { apply filter_In. split; [exact Hl|]. destruct level as [|q]; [reflexivity|]. cbn [neqb]. apply Bool.negb_true_iff, Bool.not_true_is_false. intro Q0. apply Hz. exists q. split; [reflexivity|]. apply Qeq_bool_iff. exact Q0. }
    destruct (nonzero_levels levels) as [|x ls]; [destruct N|]. cbn [snapshot_loop]. unfold detect_level, contours_at.
    assert (B : ((length f =? 1)%nat || (width_of f =? 1)%nat)%bool = true).
    { apply Bool.orb_true_iff. destruct Hf as [->|[Nf Hf]]; [left; reflexivity|right]. destruct f as [|r f]; [contradiction|]. cbn [width_of]. rewrite (Hf r (or_introl eq_refl)). reflexivity. }
    rewrite B. reflexivity. }
  rewrite S. reflexivity.
Qed.
Print Assumptions C120_single_row_or_column_refuted.
(** A section along one latitude, with two maxima *)
Example C120_case : let f := [[Num 0; Num 3; Num 0; Num 5; Num 0]] in let o := ex_tracker [f] in
  (forall ds, t_data o <> Single ds) /\ run_steps o 0 None = [0] /\ field_at o 0 f /\ single_row_or_column f /\ In (Num 1) [Num 0; Num 1] /\ ~ zero (Num 1).
Proof.
  cbv zeta. split; [discriminate|]. split; [reflexivity|]. split; [eexists; split; [left; split; [lia|reflexivity]|reflexivity]|]. split; [left; reflexivity|]. split; [right; left; reflexivity|].
  intros (q & E & H). injection E as <-. discriminate H.
Qed.

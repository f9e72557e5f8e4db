(** Properties C54 and C55: progress messages. *)
From Coq Require Import Reals Lra Lia.
From Flocq Require Import Core.
From Verif Require Import M_Base M_Printer L_Printer.
Open Scope string_scope.
Open Scope R_scope.

(** [n] copies of a string. *)
Fixpoint copies (s : string) (n : nat) : string := match n with O => "" | S m => (s ++ copies s m)%string end.
(** A bar of ten cells with [k] of them filled. *)
Definition ten_cells (k : nat) (s : string) : Prop := (k <= 10)%nat /\ s = (copies "=" k ++ ">" ++ copies " " (10 - k))%string.
Lemma repeat_copies a n : repeat_char a n = copies (String a "") n. Proof. induction n as [|n IH]; [reflexivity|]. cbn. rewrite IH. reflexivity. Qed.
Lemma bar_filled maxv i : (0 <= i < maxv)%Z -> (maxv < 2 ^ 53)%Z -> ten_cells (Z.to_nat (progress maxv 1 i)) (bar maxv 1 i).
Proof.
  intros Hi Hm. pose proof (progress_range maxv i Hi) as R. split; [lia|]. unfold bar, times. rewrite !repeat_copies. replace (Z.to_nat (10 - progress maxv 1 i)) with (10 - Z.to_nat (progress maxv 1 i))%nat by lia. reflexivity.
Qed.
Lemma append_length s t : String.length (s ++ t)%string = (String.length s + String.length t)%nat. Proof. induction s as [|a s IH]; cbn; auto. Qed.
Lemma copies_length a n : String.length (copies (String a "") n) = n. Proof. induction n as [|n IH]; cbn; auto. Qed.
Lemma copies_inj k k' s s' : (copies "=" k ++ ">" ++ s)%string = (copies "=" k' ++ ">" ++ s')%string -> k = k'.
Proof. revert k'. induction k as [|k IH]; intros [|k'] H; cbn in H; try reflexivity; try discriminate. injection H as H. f_equal. exact (IH k' H). Qed.
Lemma cells_unique k k' s : ten_cells k s -> ten_cells k' s -> k = k'. Proof. intros [_ ->] [_ E]. exact (copies_inj _ _ _ _ E). Qed.

(** C54: the bar has ten cells around the arrow, filled in proportion to the steps done, never fewer later, all at the last step. *)
Theorem C54_bar maxv i : (0 <= i < maxv)%Z -> (maxv < 2 ^ 53)%Z ->
  exists k, ten_cells k (bar maxv 1 i) /\ String.length (bar maxv 1 i) = 11%nat /\
    10 * (IZR (i + 1) / IZR maxv) - 1 - / 1000000000000 < INR k <= 10 * (IZR (i + 1) / IZR maxv) + / 1000000000000.
Proof.
  intros Hi Hm. exists (Z.to_nat (progress maxv 1 i)). pose proof (bar_filled maxv i Hi Hm) as B. split; [exact B|]. split.
  - destruct B as [K ->]. rewrite !append_length, !copies_length. cbn [String.length]. lia.
  - pose proof (progress_range maxv i Hi) as R. rewrite INR_IZR_INZ, Z2Nat.id by lia. exact (progress_accurate maxv i Hi Hm).
Qed.
Print Assumptions C54_bar.
Theorem C54_bar_never_shrinks maxv i i' k k' : (0 <= i <= i')%Z -> (i' < maxv)%Z -> (maxv < 2 ^ 53)%Z -> ten_cells k (bar maxv 1 i) -> ten_cells k' (bar maxv 1 i') -> (k <= k')%nat.
Proof.
  intros H1 H2 H3 C C'. rewrite (cells_unique _ _ _ C (bar_filled maxv i ltac:(lia) H3)), (cells_unique _ _ _ C' (bar_filled maxv i' ltac:(lia) H3)). pose proof (progress_mono maxv i i' H1 H2 H3). lia.
Qed.
Print Assumptions C54_bar_never_shrinks.
Theorem C54_last maxv : (0 < maxv)%Z -> bar maxv 1 (maxv - 1) = "==========>" /\ shown_percent maxv (maxv - 1) = 100%Z.
Proof. intro H. unfold bar, shown_percent. rewrite (progress_last maxv H), (percent_last maxv H). split; [reflexivity|apply (py_round_int 100)]. Qed.
Print Assumptions C54_last.
Theorem C54_percent maxv i : (0 <= i < maxv)%Z -> (maxv < 2 ^ 53)%Z ->
  (0 <= shown_percent maxv i <= 100)%Z /\ Rabs (IZR (shown_percent maxv i) - 100 * (IZR (i + 1) / IZR maxv)) <= 1 / 2 + / 1000000000000.
Proof.
  intros Hi Hm. unfold shown_percent. split.
  - destruct (percent_range maxv i Hi Hm) as [A B]. apply py_round_le in A, B. rewrite (py_round_int 0) in A. rewrite (py_round_int 100) in B. auto.
  - pose proof (py_round_half (percent maxv i)) as A. pose proof (percent_accurate maxv i Hi Hm) as B. refine (Rle_trans _ _ _ _ (Rplus_le_compat _ _ _ _ A B)).
    replace (IZR (py_round (percent maxv i)) - 100 * (IZR (i + 1) / IZR maxv)) with ((IZR (py_round (percent maxv i)) - percent maxv i) + (percent maxv i - 100 * (IZR (i + 1) / IZR maxv))) by ring. apply Rabs_triang.
Qed.
Print Assumptions C54_percent.
Theorem C54_percent_never_shrinks maxv i i' : (0 <= i <= i')%Z -> (i' < maxv)%Z -> (shown_percent maxv i <= shown_percent maxv i')%Z.
Proof. intros H1 H2. unfold shown_percent. apply py_round_le, percent_mono; assumption. Qed.
Print Assumptions C54_percent_never_shrinks.
(** C107: the estimated total time is the elapsed time divided by the part of the steps that is done, up to rounding. *)
Theorem C107_estimated_time maxv i etime : (0 <= i < maxv)%Z -> (maxv < 2 ^ 53)%Z -> (0 <= etime < 2 ^ 53)%Z ->
  let t := IZR etime * (IZR maxv / IZR (i + 1)) in Rabs (IZR (estimate maxv i etime) - t) <= 1 / 2 + t * / 100000000000000.
Proof.
  intros Hi Hm He t. unfold estimate. destruct (Z.eq_dec etime 0) as [->|N].
  { unfold t. replace (0 / percent maxv i) with 0 by (unfold Rdiv; ring). rewrite (b64_int 0) by (cbn; lia). replace (IZR 0 * 100) with (IZR 0) by ring. rewrite (b64_int 0), (py_round_int 0) by (cbn; lia). replace (IZR 0 - IZR 0 * (IZR maxv / IZR (i + 1))) with 0 by ring. rewrite Rabs_R0. rewrite !Rmult_0_l. lra. }
  assert (E1 : 1 <= IZR etime) by (apply IZR_le; lia). pose proof (posm maxv i Hi) as Pm. pose proof (posi maxv i Hi) as [Pi1 Pi2]. pose proof (ratio_bounds maxv i Hi Hm) as [A B]. set (r := IZR (i + 1) / IZR maxv) in *. pose proof tiny_le as [T1 T2]. pose proof eps_small as [[U0 U1] U2].
  assert (Et : t = IZR etime / r) by (unfold t, r; field; lra). assert (Ip : 1 <= / r) by (rewrite <- Rinv_1; apply Rinv_le_contravar; lra). assert (Tp : 1 <= t) by (rewrite Et; unfold Rdiv; nra).
  unfold percent. fold r. destruct (b64_err r ltac:(lra)) as [e [Se ->]]. apply Rabs_le_inv in Se. assert (P : / 2 ^ 53 / 2 <= r * (1 + e)) by nra. destruct (b64_err (r * (1 + e) * 100) ltac:(lra)) as [f [Sf ->]]. apply Rabs_le_inv in Sf.
  assert (D1 : IZR etime / (r * (1 + e) * 100 * (1 + f)) = t / 100 * (/ (1 + e) * / (1 + f))) by (rewrite Et; field; lra). rewrite D1.
  assert (V : forall g, - / 2 ^ 53 <= g <= / 2 ^ 53 -> 1 - 2 * / 2 ^ 53 <= / (1 + g) <= 1 + 2 * / 2 ^ 53) by (intros g Hg; split; (apply Rmult_le_reg_r with (1 + g); [lra|]; rewrite Rinv_l by lra; nra)).
  pose proof (V e Se) as Ve. pose proof (V f Sf) as Vf. set (w1 := / (1 + e)) in *. set (w2 := / (1 + f)) in *.
  assert (W : 1 - 5 * / 2 ^ 53 <= w1 * w2 <= 1 + 5 * / 2 ^ 53) by nra. set (w := w1 * w2) in *.
  assert (Wt : 1 / 200 <= t / 100 * w) by nra. destruct (b64_err (t / 100 * w)) as [g [Sg ->]]. { lra. } apply Rabs_le_inv in Sg.
  assert (Wg : 1 / 4 <= t / 100 * w * (1 + g) * 100) by (set (u := t / 100 * w) in *; nra). destruct (b64_err (t / 100 * w * (1 + g) * 100)) as [h [Sh ->]]. { lra. } apply Rabs_le_inv in Sh.
  set (y := t / 100 * w * (1 + g) * 100 * (1 + h)). assert (Y : Rabs (y - t) <= t * / 100000000000000).
  { replace (y - t) with (t * (w * ((1 + g) * (1 + h)) - 1)) by (unfold y; field). assert (G : 1 - 3 * / 2 ^ 53 <= (1 + g) * (1 + h) <= 1 + 3 * / 2 ^ 53) by nra. set (q := (1 + g) * (1 + h)) in *.
    assert (Q : Rabs (w * q - 1) <= 9 * / 1000000000000000) by (apply Rabs_le; nra). rewrite Rabs_mult, (Rabs_pos_eq t) by lra. pose proof (Rabs_pos (w * q - 1)). nra. }
  pose proof (py_round_half y) as Hy. replace (IZR (py_round y) - t) with ((IZR (py_round y) - y) + (y - t)) by ring. refine (Rle_trans _ _ _ (Rabs_triang _ _) _). lra.
Qed.
Print Assumptions C107_estimated_time.
Example C107_example : (0 <= 2 < 4)%Z /\ (0 <= 30 < 2 ^ 53)%Z /\ IZR 30 * (IZR 4 / IZR (2 + 1)) = 40. Proof. split; [lia|]. split; [lia|]. cbn. lra. Qed.
Example C54_example : (0 <= 2 < 4)%Z /\ ten_cells 10 (bar 4 1 3). Proof. split; [lia|]. destruct (C54_last 4 ltac:(lia)) as [E _]. change (4 - 1)%Z with 3%Z in E. rewrite E. split; [lia|reflexivity]. Qed.

(** C55: exactly the versions 3.0 and 3.1 of Python 3 are refused; 3.2 to 3.9 are not. *)
Theorem C55_refuted minor patch : (2 <= minor < 10)%nat -> printer_init 3 minor patch = Ok tt.
Proof. intro H. unfold printer_init, version_tuple. cbn [tuple_lt]. rewrite minor_not_below by lia. change (str_lt (show 3) "3") with false. change (String.eqb (show 3) "3") with true. cbn [orb andb]. rewrite not_below_0. rewrite !andb_false_r. reflexivity. Qed.
Print Assumptions C55_refuted.
Theorem C55_python3_partial minor patch : printer_init 3 minor patch = Err ImportError <-> (minor < 2)%nat.
Proof.
  destruct (Nat.lt_ge_cases minor 2) as [H|H].
  - split; [auto|intros _]. destruct minor as [|[|?]]; [reflexivity|reflexivity|lia].
  - split; [|lia]. intro E. exfalso. revert E. unfold printer_init, version_tuple. cbn [tuple_lt]. rewrite minor_not_below by lia. change (str_lt (show 3) "3") with false. change (String.eqb (show 3) "3") with true. cbn [orb andb]. rewrite not_below_0. rewrite !andb_false_r. discriminate.
Qed.
Print Assumptions C55_python3_partial.
Theorem C55_python2_partial minor patch : printer_init 2 minor patch = Err ImportError.
Proof. reflexivity. Qed.
Print Assumptions C55_python2_partial.
(** for the versions with a one-digit major number: refused exactly below 3.2 *)
Theorem C55_versions_partial major minor patch : (major < 10)%nat -> printer_init major minor patch = Err ImportError <-> (major < 3 \/ (major = 3 /\ minor < 2))%nat.
Proof.
  intro H. destruct (Nat.eq_dec major 3) as [->|N]; [rewrite C55_python3_partial; lia|].
  do 10 (destruct major as [|major]; [split; [intro E; try lia; discriminate E|intro E; try lia; reflexivity]|]). lia.
Qed.
Print Assumptions C55_versions_partial.
Example C55_example : (2 <= 9 < 10)%nat /\ version_tuple 3 9 18 = ["3"; "9"; "18"] /\ printer_init 10 0 0 = Err ImportError. Proof. split; [lia|]. split; reflexivity. Qed.

(** Calls, histories of calls, and snapshots. *)
From Coq Require Import Lia.
From Verif Require Import M_Base M_Tables M_Area M_Eddy M_Detect S_Tracking S_Levels S_Detect L_Base L_Eddy L_Detect L_Levels L_Detect2.
Open Scope Z_scope.

Lemma shift_seq n m : map (fun i => Z.of_nat n + Z.of_nat i) (seq 0 m) = map Z.of_nat (seq n m).
Proof.
  assert (H : forall s, map (fun i => Z.of_nat n + Z.of_nat i) (seq s m) = map Z.of_nat (seq (n + s) m)).
  { induction m as [|m IHm]; intro s; [reflexivity|]. cbn. f_equal; [lia|]. rewrite plus_n_Sm. apply IHm. }
  rewrite (H 0%nat), Nat.add_0_r. reflexivity.
Qed.
Lemma run_spec k st : proper k ->
  match run k st with
  | (Ok (R, D), st') => exists fs D1, fates k fs /\ noted (calls (snd st)) (dropped fs) D1 /\ Forall (fun e => e <> []) (kept fs) /\
      R = match kept fs with [] => empty_frame | _ => set_index (df_store (fst st) ++ num_rows (calls (fst st)) (kept fs)) end /\
      D = match dropped fs with [] => [] | _ => df_store (snd st) ++ D1 end /\
      st' = match kept fs with
            | [] => (fst st, mkColl (calls (snd st) + Z.of_nat (length (dropped fs))) (df_store (snd st) ++ D1))
            | _ => initial_state end
  | (Err x, st') => exists pre c post fs D1, c_contours k = pre ++ c :: post /\
      Forall2 (is_judged (c_setting k) (c_level k)) pre fs /\ noted (calls (snd st)) (dropped fs) D1 /\ Forall (fun e => e <> []) (kept fs) /\
      does_raise (c_setting k) c x /\ st' = after st fs D1
  end.
Proof.
  destruct k as [s l cs]. intros [H5 Hne]. unfold run, analyse, detect_one_level. cbn [c_setting c_level c_contours] in *.
  assert (H := level_loop_spec (s_flops s) (s_rossby s) (s_fit_ellipse s) (s_eccentricity s) (s_similarity s) (s_data s) (s_gauss_fit s) l (s_crit s)
    (s_skip s) H5 cs Hne None None st).
  destruct (level_contours _ _ _ _ _ _ _ _ _ _ _ _ _ _) as [[[info disc]|x] st'].
  - destruct H as (fs & D & A & B & C & E & F & G). subst info disc. destruct (kept fs) eqn:Ek.
    + exists fs, D. rewrite Ek. repeat split; try assumption; try apply B.
      * destruct (dropped fs); [reflexivity|]. rewrite E. reflexivity.
      * rewrite E. unfold after. rewrite Ek. cbn [length num_rows]. rewrite Z.add_0_r, app_nil_r. destruct st as [[? ?] ?]. reflexivity.
    + exists fs, D. rewrite Ek. repeat split; try assumption; try apply B.
      * rewrite E. unfold after. rewrite Ek. reflexivity.
      * destruct (dropped fs); [reflexivity|]. rewrite E. reflexivity.
  - exact H.
Qed.

Lemma clean_spec h : Forall proper h -> forall st st', fst st = fresh -> calls (snd st) = Z.of_nat (length (df_store (snd st))) ->
  map fst (df_store (snd st)) = map Z.of_nat (seq 0 (length (df_store (snd st)))) ->
  forall acc, map noted_reason (df_store (snd st)) = map Some acc ->
  clean h st st' ->
  fst st' = fresh /\ calls (snd st') = Z.of_nat (length (df_store (snd st'))) /\
  map fst (df_store (snd st')) = map Z.of_nat (seq 0 (length (df_store (snd st')))) /\
  exists F, Forall2 fates h F /\ map noted_reason (df_store (snd st')) = map Some (pending acc F).
Proof.
  induction 1 as [|k h Hk Hh IH]; intros st st' H1 H2 H2b acc H3 Hc.
  - cbn in Hc. subst st'. repeat split; try assumption. exists []. split; [constructor|exact H3].
  - destruct Hc as ([R D] & st1 & Hr & Hc). assert (H := run_spec k st Hk). rewrite Hr in H.
    destruct H as (fs & D1 & A & B & C & E & F & G).
    assert (Hst1 : fst st1 = fresh /\ calls (snd st1) = Z.of_nat (length (df_store (snd st1))) /\
      map fst (df_store (snd st1)) = map Z.of_nat (seq 0 (length (df_store (snd st1)))) /\
      map noted_reason (df_store (snd st1)) = map Some (match kept fs with [] => acc ++ dropped fs | _ => [] end)).
    { destruct (kept fs); subst st1; [|repeat split; reflexivity]. cbn [fst snd calls df_store]. destruct B as [B1 B2].
      assert (HL : length D1 = length (dropped fs)) by (apply (f_equal (@length (option string))) in B2; rewrite !map_length in B2; exact B2).
      split; [exact H1|]. split; [rewrite app_length; lia|]. split; [|rewrite !map_app, B2, H3; reflexivity].
      rewrite map_app, B1, H2b, app_length, seq_app, map_app. f_equal. cbn [plus]. rewrite HL, H2.
      apply shift_seq. }
    destruct Hst1 as (X1 & X2 & X2b & X3).
    destruct (IH st1 st' X1 X2 X2b _ X3 Hc) as (Y1 & Y2 & Y2b & F' & Y3 & Y4). split; [exact Y1|]. split; [exact Y2|]. split; [exact Y2b|].
    exists (fs :: F'). split; [constructor; assumption|]. exact Y4.
Qed.
Lemma clean_initial h st : Forall proper h -> clean h initial_state st ->
  fst st = fresh /\ calls (snd st) = Z.of_nat (length (df_store (snd st))) /\
  map fst (df_store (snd st)) = map Z.of_nat (seq 0 (length (df_store (snd st)))) /\
  exists F, Forall2 fates h F /\ map noted_reason (df_store (snd st)) = map Some (pending [] F).
Proof. intros H Hc. apply (clean_spec h H initial_state st); try reflexivity. exact Hc. Qed.

Lemma set_index_fresh E : Forall (fun e : eddy => e <> []) E -> set_index (df_store (@fresh row) ++ num_rows (calls (@fresh row)) E) = level_table E.
Proof.
  intro H. unfold set_index, level_table. cbn [fresh df_store calls app]. rewrite num_rows_used by exact H. rewrite num_rows_table. f_equal.
Qed.

(** From a clean state: the whole result. *)
Lemma run_clean h st k : Forall proper h -> clean h initial_state st -> proper k ->
  match run k st with
  | (Ok (R, D), st') => exists F fs, Forall2 fates h F /\ fates k fs /\ R = level_table (kept fs) /\
      match dropped fs with
      | [] => D = []
      | _ => map noted_reason D = map Some (pending [] F ++ dropped fs) /\ map fst D = map Z.of_nat (seq 0 (length D))
      end /\ fst st' = fresh
  | (Err x, st') => exists pre c post fs, c_contours k = pre ++ c :: post /\
      Forall2 (is_judged (c_setting k) (c_level k)) pre fs /\ does_raise (c_setting k) c x
  end.
Proof.
  intros Hh Hc Hk. destruct (clean_initial h st Hh Hc) as (A & B & Bb & F & HF & HD).
  assert (H := run_spec k st Hk). destruct (run k st) as [[[R D]|x] st'].
  - destruct H as (fs & D1 & H1 & H2 & H3 & H4 & H5 & H6). exists F, fs. split; [exact HF|]. split; [exact H1|]. split; [|split].
    + subst R. rewrite A. rewrite set_index_fresh by exact H3. destruct (kept fs); reflexivity.
    + subst D. destruct H2 as [N1 N2].
      assert (HL : length D1 = length (dropped fs)) by (apply (f_equal (@length (option string))) in N2; rewrite !map_length in N2; exact N2).
      destruct (dropped fs) as [|r rs] eqn:Ed; [reflexivity|]. rewrite <- Ed in *. split.
      * rewrite !map_app, N2, HD. reflexivity.
      * rewrite map_app, N1, Bb, app_length, seq_app, map_app. f_equal. cbn [plus]. rewrite HL, B.
        apply shift_seq.
    + subst st'. destruct (kept fs); [exact A|reflexivity].
  - destruct H as (pre & c & post & fs & D1 & H1 & H2 & H3 & H4 & H5 & H6). exists pre, c, post, fs. auto.
Qed.

(** Fates are determined. *)
Lemma first_fail (l : list (string * res bool)) pre n1 v1 post pre' n2 v2 post' :
  l = pre ++ (n1, v1) :: post -> l = pre' ++ (n2, v2) :: post' -> (forall nb, In nb pre -> snd nb = Ok true) ->
  (forall nb, In nb pre' -> snd nb = Ok true) -> v1 <> Ok true -> v2 <> Ok true -> n1 = n2 /\ v1 = v2.
Proof.
  revert l pre'. induction pre as [|p pre IH]; intros l pre' -> E H1 H2 Hv1 Hv2.
  - destruct pre' as [|p' pre']; cbn in E; [injection E as <- <- _; auto|]. injection E as <- _. exfalso. apply Hv1, (H2 _ (or_introl eq_refl)).
  - destruct pre' as [|p' pre']; cbn in E.
    + injection E as -> _. exfalso. apply Hv2, (H1 _ (or_introl eq_refl)).
    + injection E as <- E. apply (IH _ pre' eq_refl E); auto; intros; [apply H1|apply H2]; right; assumption.
Qed.
Lemma accepted_not_rejected s c r : is_accepted s c -> is_rejected s c r -> False.
Proof.
  intros [_ A] (_ & pre & post & E & _). unfold is_rejected in *. assert (In (r, Ok false) (pre ++ (r, Ok false) :: post)) as Hi by (apply in_or_app; right; left; reflexivity).
  rewrite <- E in Hi. apply A in Hi. discriminate.
Qed.
Lemma accepted_not_raises s c e : is_accepted s c -> does_raise s c e -> False.
Proof.
  intros [_ A] (_ & pre & n & post & E & _). assert (In (n, Err e) (pre ++ (n, Err e) :: post)) as Hi by (apply in_or_app; right; left; reflexivity).
  rewrite <- E in Hi. apply A in Hi. discriminate.
Qed.
Lemma rejected_not_raises s c r e : is_rejected s c r -> does_raise s c e -> False.
Proof.
  intros (_ & pre & post & E & H) (_ & pre' & n & post' & E' & H'). destruct (first_fail _ _ _ _ _ _ _ _ _ E E' H H'); discriminate.
Qed.
Lemma rejected_unique s c r r' : is_rejected s c r -> is_rejected s c r' -> r = r'.
Proof.
  intros (_ & pre & post & E & H) (_ & pre' & post' & E' & H'). destruct (first_fail _ _ _ _ _ _ _ _ _ E E' H H'); try discriminate. assumption.
Qed.
Lemma raises_unique s c e e' : does_raise s c e -> does_raise s c e' -> e = e'.
Proof.
  intros (_ & pre & n & post & E & H) (_ & pre' & n' & post' & E' & H'). destruct (first_fail _ _ _ _ _ _ _ _ _ E E' H H'); try discriminate. congruence.
Qed.
Lemma recorded_unique s l c e e' :
  recorded (enclosed_area (s_flops s)) (disc_radius (s_flops s)) (s_fit_ellipse s) (s_eccentricity s) (s_similarity s) (s_data s) (s_gauss_fit s) l (s_skip s) c e ->
  recorded (enclosed_area (s_flops s)) (disc_radius (s_flops s)) (s_fit_ellipse s) (s_eccentricity s) (s_similarity s) (s_data s) (s_gauss_fit s) l (s_skip s) c e' -> e = e'.
Proof.
  intros (el & a & b & th & err & sgn & v & y & x & g & gerr & A & B & C & D & ->) (el' & a' & b' & th' & err' & sgn' & v' & y' & x' & g' & gerr' & A' & B' & C' & D' & ->).
  rewrite A in A'. injection A' as <- <- <- <-. rewrite B in B'. injection B' as <-. rewrite C in C'. injection C' as <- <- <- <-.
  assert (g = g' /\ gerr = gerr') as [<- <-]; [|reflexivity].
  destruct (s_skip s); [intuition congruence|]. destruct D as (gc & D1 & D2), D' as (gc' & D1' & D2'). rewrite D1 in D1'. injection D1' as <- <-. rewrite D2 in D2'. split; congruence.
Qed.
Lemma judged_unique s l c f f' : is_judged s l c f -> is_judged s l c f' -> f = f'.
Proof.
  destruct f, f'; cbn; intros H H'; try reflexivity.
  all: try (exfalso; first [apply (proj1 (proj1 H')); exact H|apply (proj1 (proj1 H)); exact H'|apply (proj1 H'); exact H|apply (proj1 H); exact H'
       |eapply accepted_not_rejected; [apply H|exact H']|eapply accepted_not_rejected; [apply H'|exact H]]).
  - f_equal. eapply recorded_unique; [apply H|apply H'].
  - f_equal. eapply rejected_unique; eassumption.
Qed.
Lemma fates_unique k fs fs' : fates k fs -> fates k fs' -> fs = fs'.
Proof.
  unfold fates. generalize (c_contours k). intros cs H. revert fs'. induction H as [|c f cs fs Hf H IH]; intros fs' H'; inversion H'; subst; [reflexivity|].
  f_equal; [eapply judged_unique; eassumption|]. apply IH. assumption.
Qed.

(** Identified tables do not depend on a clean past. *)
Lemma judged_not_raises s l c f e : is_judged s l c f -> does_raise s c e -> False.
Proof.
  destruct f; cbn; intros H Hr; [apply (proj1 Hr), H|eapply accepted_not_raises; [apply H|exact Hr]|eapply rejected_not_raises; eassumption].
Qed.
Lemma run_state_independent h st k : Forall proper h -> clean h initial_state st -> proper k ->
  match fst (run k st), fst (run k initial_state) with
  | Ok (R, _), Ok (R', _) => R = R'
  | Err e, Err e' => e = e'
  | _, _ => False
  end.
Proof.
  intros Hh Hc Hk. assert (H := run_clean h st k Hh Hc Hk). assert (H' := run_clean [] initial_state k (Forall_nil _) eq_refl Hk).
  destruct (run k st) as [[[R D]|x] st'], (run k initial_state) as [[[R' D']|x'] st'']; cbn [fst].
  - destruct H as (F & fs & _ & H1 & -> & _). destruct H' as (F' & fs' & _ & H1' & -> & _). rewrite (fates_unique _ _ _ H1 H1'). reflexivity.
  - destruct H as (F & fs & _ & H1 & _). destruct H' as (pre & c & post & fs' & E & _ & Hr). unfold fates in H1. rewrite E in H1.
    apply Forall2_app_inv_l in H1. destruct H1 as (f1 & f2 & _ & H1 & _). inversion H1; subst. eapply judged_not_raises; eassumption.
  - destruct H' as (F & fs & _ & H1 & _). destruct H as (pre & c & post & fs' & E & _ & Hr). unfold fates in H1. rewrite E in H1.
    apply Forall2_app_inv_l in H1. destruct H1 as (f1 & f2 & _ & H1 & _). inversion H1; subst. eapply judged_not_raises; eassumption.
  - destruct H as (pre & c & post & fs & E & Hj & Hr). destruct H' as (pre' & c' & post' & fs' & E' & Hj' & Hr').
    revert pre' post' fs' E' Hj'. rewrite E. clear E. revert fs Hj. induction pre as [|p pre IH]; intros fs Hj pre' post' fs' E' Hj'.
    + destruct pre' as [|p' pre']; cbn in E'; injection E' as E1 E2; subst.
      * eapply raises_unique; eassumption.
      * inversion Hj'; subst. exfalso. eapply judged_not_raises; eassumption.
    + destruct pre' as [|p' pre']; cbn in E'; injection E' as E1 E2; subst.
      * inversion Hj; subst. exfalso. eapply judged_not_raises; eassumption.
      * inversion Hj; subst. inversion Hj'; subst. eapply IH; eassumption.
Qed.

(** C84-C87: runs over several steps compared with runs of single steps *)
From Coq Require Import Lia Permutation Sorted.
From Verif Require Import M_Base M_Tables M_Area M_Eddy M_Detect M_Cntr M_Extract M_Window M_Pipeline S_Cntr S_Tracking S_Levels S_Detect S_Pipeline S_Process
  L_Base L_Levels L_Levels2 L_Levels5 L_Detect3 L_Detect4 L_Tables L_Track L_Step L_Run L_Run2 L_TrackProps L_Pipeline L_Witness L_Window4 P_Levels P_Tracking P_Cntr P_Detect P_Pipeline.
Open Scope Z_scope.

(** *** lemmas *)
Definition steps_of (o : tracker) : Z := match t_data o with Series l => Z.of_nat (length l) | Single _ => 0 end.
Lemma tracking_time o t0 n ls nt online st : five_fitted o -> process st -> n <> 0 ->
  fst (tracking o t0 (Some n) ls nt online st) = time_tracking (t_query o) (t_keep o) (detect_of o ls) online (t_out_format o) (steps_of o) t0 (Some n) nt.
Proof.
  intros H5 Hp Hn. apply process_settled in Hp. destruct (tracking_stateless o H5 t0 (Some n) ls nt online st Hp) as [-> _].
  unfold times, time_tracking, steps_of. destruct (t_data o); [reflexivity|]. destruct (Z.eqb_spec n 0); [contradiction|reflexivity].
Qed.
Lemma detect_facts o levels t g : five_fitted o -> detect_of o (Some levels) t = Ok g ->
  snapshot_ok g /\ sorted_table (rows g) /\ exists NS, Forall2 (found_at o t) (nonzero_levels levels) NS /\ Forall (Forall eddy_ok) NS /\ scan (t_query o) (t_keep o) NS = Ok g.
Proof.
  intros H5 Hg. unfold detect_of in Hg. destruct (snapshot o (Some levels) t initial_state) as [r s] eqn:Es. cbn [fst] in Hg. subst r.
  destruct (snapshot_spec o H5 levels t initial_state g s settled_initial Es) as (_ & d & NS & D & F & S).
  assert (F' : Forall2 (found_at o t) (nonzero_levels levels) NS).
  { clear S. induction F as [|l N ls NS' Hh _ IH]; constructor; [|exact IH]. destruct Hh as (f & cs & fs & -> & B & C & _ & ->). exists f, (settings o f l), cs, fs. split; [apply data2track_field, D|]. split; [apply settings_ok|]. auto. }
  assert (K : Forall (Forall eddy_ok) NS) by (eapply Forall2_right; [|exact F']; intros; eapply found_ok; eauto).
  destruct (C14_snapshot_shape _ _ _ _ K S) as (A & B & _). split; [exact A|]. split; [exact B|]. exists NS. auto.
Qed.
Lemma sorted_le rs : sorted_table rs -> StronglySorted (fun a b => le_id_time_idx a b = true) rs.
Proof.
  unfold sorted_table. induction 1 as [|a l H IH F]; constructor; [exact IH|]. refine (Forall_impl _ _ F). intros b Hb. unfold le_id_time_idx, row_le in *.
  destruct (Z.ltb_spec (r_id a) (r_id b)); [reflexivity|]. destruct (Z.eqb_spec (r_id a) (r_id b)); [|lia]. cbn [andb orb].
  destruct (Z.ltb_spec (r_time a) (r_time b)); [reflexivity|]. destruct (Z.eqb_spec (r_time a) (r_time b)); [|lia]. cbn [andb orb]. apply Z.leb_le. lia.
Qed.
Lemma stamped_sorted t g : snapshot_ok g -> sorted_table (rows g) -> sorted_table (map (at_time t) (rows g)).
Proof.
  intros (_ & _ & _ & T) H. unfold sorted_table in *. assert (E : forall r r', In r (rows g) -> In r' (rows g) -> r_time r = r_time r') by exact T. clear T. revert E H. generalize (rows g). intros rs E H.
  induction H as [|a l H IH F]; [constructor|]. cbn [map]. constructor; [apply IH; intros; apply E; right; assumption|]. rewrite Forall_map. rewrite Forall_forall in *. intros b Hb. specialize (F b Hb).
  specialize (E a b (or_introl eq_refl) (or_intror Hb)). unfold row_le, at_time in *. cbn [r_id r_time r_idx]. lia.
Qed.
Lemma first_table t g : snapshot_ok g -> sorted_table (rows g) -> rows (set_index (isort le_id_time_idx (rows (stamp t g)))) = map (at_time t) (rows g).
Proof. intros A B. cbn [stamp set_index rows]. apply isort_fix, sorted_le. exact (stamped_sorted t g A B). Qed.

Lemma range_one t : zrange t (t + 1) = [t].
Proof. unfold zrange. replace (t + 1 - t) with 1 by lia. change (map (fun i => t + Z.of_nat i) (seq 0 1) = [t]). cbn [seq map]. rewrite Z.add_0_r. reflexivity. Qed.
Lemma alone_eq o levels t : five_fitted o -> 0 <= t ->
  fst (tracking o t (Some (t + 1)) (Some levels) 1 true initial_state) =
  match detect_of o (Some levels) t with Err e => ([], Err e) | Ok g => ([], Ok (if empty g then empty_frame else set_index (isort le_id_time_idx (rows (stamp t g))))) end.
Proof.
  intros H5 Ht. rewrite tracking_time by (exact H5 || apply started || lia). unfold time_tracking, tt_times. destruct (Z.eqb_spec (t + 1) 0); [lia|]. rewrite range_one. cbn [tt_loop].
  destruct (detect_of o (Some levels) t) as [g|]; [|reflexivity]. destruct (empty g); [reflexivity|]. cbn [empty empty_frame rows]. reflexivity.
Qed.
Lemma alone_inv o levels t R : five_fitted o -> 0 <= t -> alone o levels t R -> exists g, detect_of o (Some levels) t = Ok g /\ rows R = map (at_time t) (rows g).
Proof.
  intros H5 Ht H. unfold alone, run_returns in H. rewrite alone_eq in H by assumption. destruct (detect_of o (Some levels) t) as [g|] eqn:E; [|discriminate]. injection H as <-. exists g. split; [reflexivity|].
  destruct (detect_facts _ _ _ _ H5 E) as (A & B & _). destruct (empty g) eqn:Ee; [apply empty_true in Ee; rewrite Ee; reflexivity|apply first_table; assumption].
Qed.
Lemma alone_of o levels t g : five_fitted o -> 0 <= t -> detect_of o (Some levels) t = Ok g -> exists R, alone o levels t R /\ rows R = map (at_time t) (rows g).
Proof.
  intros H5 Ht E. assert (A := alone_eq o levels t H5 Ht). rewrite E in A. eexists. split; [exact A|]. destruct (alone_inv o levels t _ H5 Ht A) as (g' & E' & R'). congruence.
Qed.
Lemma has_eddies_at o levels t : five_fitted o -> 0 <= t -> (has_eddies o levels t <-> eddies_at (detect_of o (Some levels)) t).
Proof.
  intros H5 Ht. split.
  - intros (R & A & N). destruct (alone_inv _ _ _ _ H5 Ht A) as (g & E & Er). exists g. split; [exact E|]. intro H0. rewrite H0 in Er. contradiction.
  - intros (g & E & N). destruct (alone_of _ _ _ _ H5 Ht E) as (R & A & Er). exists R. split; [exact A|]. rewrite Er. destruct (rows g); [contradiction|discriminate].
Qed.
Lemma in_range a b t : In t (zrange a b) <-> a <= t < b.
Proof. unfold zrange. rewrite in_map_iff. split; [intros (i & <- & H); apply in_seq in H; lia|intro H; exists (Z.to_nat (t - a)); split; [lia|apply in_seq; lia]]. Qed.
Lemma run_snapshots o levels nt online st t0 tf files R : five_fitted o -> process st -> tf <> 0 -> run_returns o levels nt online st t0 tf files R -> snapshots_ok (detect_of o (Some levels)) t0 tf.
Proof.
  intros H5 Hp Hn H t Ht. unfold run_returns in H. rewrite tracking_time in H by assumption. unfold time_tracking, tt_times in H. destruct (Z.eqb_spec tf 0); [contradiction|].
  destruct (loop_all_Ok _ _ _ _ _ _ _ _ _ _ _ _ H t) as (g & Hg); [apply in_range; exact Ht|]. exists g. split; [exact Hg|]. apply (detect_facts _ _ _ _ H5 Hg).
Qed.
Lemma run_files o hav levels nt st t0 tf files R : query_ok hav (t_query o) -> five_fitted o -> process st -> run_returns o levels nt true st t0 tf files R -> files = [].
Proof.
  intros Hq H5 Hp H. unfold run_returns in H. destruct (tracking o t0 (Some tf) (Some levels) nt true st) as [out st'] eqn:E. cbn [fst] in H. subst out.
  apply (C79_table_of_a_run _ _ _ _ _ _ _ _ _ _ Hq H5 Hp E).
Qed.
Lemma returns_run o hav levels nt st t0 tf R : query_ok hav (t_query o) -> five_fitted o -> process st -> tf <> 0 ->
  returns (time_tracking (t_query o) (t_keep o) (detect_of o (Some levels)) true (t_out_format o) (steps_of o) t0 (Some tf) nt) R -> run_returns o levels nt true st t0 tf [] R.
Proof.
  intros Hq H5 Hp Hn H. destruct (fst (tracking o t0 (Some tf) (Some levels) nt true st)) as [files r] eqn:E.
  assert (E' := E). rewrite tracking_time in E' by assumption. rewrite E' in H. unfold returns in H. cbn [snd] in H. subst r. assert (X := run_files _ _ _ _ _ _ _ _ _ Hq H5 Hp E). subst files. exact E.
Qed.
Lemma run_returns_time o levels nt online st t0 tf files R : five_fitted o -> process st -> tf <> 0 -> run_returns o levels nt online st t0 tf files R ->
  returns (time_tracking (t_query o) (t_keep o) (detect_of o (Some levels)) online (t_out_format o) (steps_of o) t0 (Some tf) nt) R.
Proof. intros H5 Hp Hn H. unfold run_returns in H. rewrite tracking_time in H by assumption. unfold returns. rewrite H. reflexivity. Qed.

(** *** C84 *)
(** A run over more steps extends the run over fewer: same rows, same identifiers, and only rows of the added steps in addition. *)
Theorem C84_longer_runs_extend_shorter_ones : forall o hav levels nt st st' t0 tf1 tf2 files R2,
  query_ok hav (t_query o) -> five_fitted o -> process st -> process st' -> 0 <= t0 -> 0 < tf1 -> t0 <= tf1 <= tf2 ->
  run_returns o levels nt true st t0 tf2 files R2 ->
  exists R1 new, run_returns o levels nt true st' t0 tf1 [] R1 /\ Permutation (rows R2) (rows R1 ++ new) /\ forall r, In r new -> tf1 <= r_time r < tf2.
Proof.
  intros o hav levels nt st st' t0 tf1 tf2 files R2 Hq H5 Hp Hp' H0 H1 H2 H.
  assert (N2 : tf2 <> 0) by lia. assert (S := run_snapshots _ _ _ _ _ _ _ _ _ H5 Hp N2 H). assert (X := run_returns_time _ _ _ _ _ _ _ _ _ H5 Hp N2 H).
  destruct (C01_track_ids_never_change hav (t_query o) Hq _ _ _ _ _ _ _ _ _ H0 H1 H2 S X) as (R1 & new & A & B & C).
  exists R1, new. split; [|split; [exact B|exact C]]. eapply returns_run; eauto; lia.
Qed.
Print Assumptions C84_longer_runs_extend_shorter_ones.

(** *** C86 *)
(** A run over the steps t0, .., tf - 1 returns a table exactly when each of the steps can be analysed alone and either at most one of them has eddies or the run
    starts at step 0 and the steps with eddies come before all others. *)
Theorem C86_when_a_run_returns : forall o hav levels nt st t0 tf,
  query_ok hav (t_query o) -> five_fitted o -> process st -> 0 <= t0 <= tf -> 0 < tf -> 1 <= nt ->
  ((exists R, run_returns o levels nt true st t0 tf [] R) <->
   (forall t, t0 <= t < tf -> exists R, alone o levels t R) /\
   ((forall s t, t0 <= s < t -> t < tf -> has_eddies o levels s -> has_eddies o levels t -> False) \/
    (t0 = 0 /\ exists m, forall t, 0 <= t < tf -> (has_eddies o levels t <-> t < m)))).
Proof.
  intros o hav levels nt st t0 tf Hq H5 Hp H0 H1 Hnt. assert (N : tf <> 0) by lia.
  assert (K : snapshots_ok (detect_of o (Some levels)) t0 tf ->
     ((exists R, run_returns o levels nt true st t0 tf [] R) <->
      ((forall s t, t0 <= s < t -> t < tf -> has_eddies o levels s -> has_eddies o levels t -> False) \/ (t0 = 0 /\ exists m, forall t, 0 <= t < tf -> (has_eddies o levels t <-> t < m))))).
  { intro S. assert (C := C08_C09_success_condition hav (t_query o) Hq (t_keep o) (detect_of o (Some levels)) (t_out_format o) (steps_of o) t0 tf nt H0 H1 Hnt S).
    split.
    - intros (R & HR). destruct C as [C _]. destruct C as [C|(C1 & m & C)].
      + exists R. eapply run_returns_time; eauto.
      + left. intros s t A B X Y. apply has_eddies_at in X; [|exact H5|lia]. apply has_eddies_at in Y; [|exact H5|lia]. eapply C; eauto.
      + right. split; [exact C1|]. exists m. intros t Ht. rewrite has_eddies_at by (exact H5 || lia). apply C, Ht.
    - intro D. destruct C as [_ C]. destruct C as (R & HR).
      + destruct D as [D|(D1 & m & D)]; [left|right; split; [exact D1|]].
        * intros s t A B X Y. apply (D s t A B); apply has_eddies_at; assumption || lia.
        * exists m. intros t Ht. rewrite <- has_eddies_at by (exact H5 || lia). apply D, Ht.
      + exists R. eapply returns_run; eauto; lia. }
  split.
  - intros (R & HR). assert (S := run_snapshots _ _ _ _ _ _ _ _ _ H5 Hp N HR). split.
    + intros t Ht. destruct (S t Ht) as (g & Hg & _). assert (P : 0 <= t) by lia. destruct (alone_of _ _ _ _ H5 P Hg) as (R' & A & _). eauto.
    + apply K; [exact S|eauto].
  - intros [A D]. apply K; [|exact D]. intros t Ht. destruct (A t Ht) as (R & HR). assert (P : 0 <= t) by lia. destruct (alone_inv _ _ _ _ H5 P HR) as (g & Hg & _). exists g. split; [exact Hg|]. apply (detect_facts _ _ _ _ H5 Hg).
Qed.
Print Assumptions C86_when_a_run_returns.

(** *** C85 *)
(** One more step: the eddies of the levels are merged into the eddies E of the step, each of these joins the nearest known track if the latest position of that
    track is within the radius of the eddy, and otherwise starts a new one. *)
Lemma table_first E k e c rest : nth_error E k = Some e -> e = c :: rest -> In (mkRow (Z.of_nat k) 0 0 c) (table E).
Proof.
  intros H ->. unfold table. apply in_flat_map. exists (k, c :: rest). split; [|left; reflexivity].
  rewrite <- (Nat.add_0_l k). generalize 0%nat as a. revert k H. induction E as [|e E IH]; intros [|k] H a; try discriminate; cbn [length seq combine].
  - injection H as ->. left. rewrite Nat.add_0_r. reflexivity.
  - right. rewrite <- Nat.add_succ_comm. apply IH, H.
Qed.
Theorem C85_one_more_step : forall o hav levels sel nt st st' t0 t files files' T R,
  query_ok hav (t_query o) -> five_fitted o -> process st -> process st' -> 0 <= t0 < t -> selects (fun x => ~ zero x) levels sel ->
  run_returns o levels nt true st t0 t files T -> run_returns o levels nt true st' t0 (t + 1) files' R -> rows T <> [] -> has_eddies o levels t ->
  (forall NS, Forall2 (found_at o t) sel NS -> safe hav [] NS) ->
  exists (NS : list (list eddy)) (E : list eddy) (n : nat) (pos : Z -> Q * Q) (id : nat -> Z),
    Forall2 (found_at o t) sel NS /\ scanned hav [] NS E /\
    contiguous (rows T) n /\ (forall i, 0 <= i < Z.of_nat n -> latest_position (rows T) i (pos i)) /\
    Permutation (rows R) (rows T ++ flat_map (fun ke => rows_at t (id (fst ke)) (snd ke)) (combine (seq 0 (length E)) E)) /\
    (forall k e c rad, nth_error E k = Some e -> eddy_pos e c -> eddy_radius e rad ->
       (0 <= id k < Z.of_nat n /\ reaches hav c rad (pos (id k)) /\ forall i, 0 <= i < Z.of_nat n -> (hav c (pos (id k)) <= hav c (pos i))%Q) \/
       (Z.of_nat n <= id k /\ forall i, 0 <= i < Z.of_nat n -> ~ reaches hav c rad (pos i))) /\
    (forall k k', (k < k' < length E)%nat -> Z.of_nat n <= id k -> Z.of_nat n <= id k' -> id k < id k').
Proof.
  intros o hav levels sel nt st st' t0 t files files' T R Hq H5 Hp Hp' Ht Hs HT HR HnT He Hsafe. assert (N0 : t <> 0) by lia. assert (N1 : t + 1 <> 0) by lia.
  assert (S := run_snapshots _ _ _ _ _ _ _ _ _ H5 Hp' N1 HR). assert (XT := run_returns_time _ _ _ _ _ _ _ _ _ H5 Hp N0 HT). assert (XR := run_returns_time _ _ _ _ _ _ _ _ _ H5 Hp' N1 HR).
  apply has_eddies_at in He; [|exact H5|lia]. destruct He as (f & Hf & Hnf). destruct (detect_facts _ _ _ _ H5 Hf) as (_ & _ & NS & F & Ok & Sc).
  rewrite (selects_unique _ _ _ _ (nonzero_selects levels) Hs) in F.
  destruct (C14_levels_merged_as_specified hav (t_query o) Hq (t_keep o) NS Ok (Hsafe NS F)) as (f' & E & Sc' & Sd & Er & De). rewrite Sc in Sc'. injection Sc' as <-.
  destruct (C05_link_iff_nearest_within_radius hav (t_query o) Hq _ _ _ _ _ _ _ _ _ _ Ht S XT XR HnT Hf Hnf De) as (n & pos & g & A & B & C & D & I).
  exists NS, E, n, pos, (fun k => g (Z.of_nat k)). split; [exact F|]. split; [exact Sd|]. split; [exact A|]. split; [exact B|].
  assert (HE : Forall eddy_ok E) by (eapply L_Levels3.scanned_ok; [|exact Ok|exact Sd]; constructor). rewrite Er in *.
  split; [|split].
  - rewrite C. apply Permutation_app_head. unfold table. rewrite map_flat_map.
    replace (flat_map _ _) with (flat_map (fun ke => rows_at t (g (Z.of_nat (fst ke))) (snd ke)) (combine (seq 0 (length E)) E)); [reflexivity|]. apply flat_map_ext. intro ke. symmetry. apply (rows_relabelled t g).
  - intros k e c rad Hk (c0 & rest & Ee & P1 & P2) (c1 & rest1 & Ee1 & Rad). rewrite Ee in Ee1. injection Ee1 as <- <-.
    destruct (D _ c rad (table_first _ _ _ _ _ Hk Ee)) as [(i & Hi & <- & X & Y)|[X Y]]; [reflexivity|split; assumption|exact Rad| |]; [left|right]; cbn [r_id] in *; auto.
  - intros k k' Hk. destruct (nth_error E k) as [e|] eqn:Ek; [|apply nth_error_None in Ek; lia]. destruct (nth_error E k') as [e'|] eqn:Ek'; [|apply nth_error_None in Ek'; lia].
    rewrite Forall_forall in HE. destruct (HE e (nth_error_In _ _ Ek)) as (p & c & r & Ee & _), (HE e' (nth_error_In _ _ Ek')) as (p' & c' & r' & Ee' & _).
    assert (X := I _ _ (table_first _ _ _ _ _ Ek Ee) (table_first _ _ _ _ _ Ek' Ee')). cbn [r_id] in X. apply X. lia.
Qed.
Print Assumptions C85_one_more_step.

(** *** C87 *)
(** Offline: every step after the first one with eddies is written, and holds what the step alone gives; the first one with eddies is returned. *)
Theorem C87_offline_files : forall o levels nt st t0 tf s R0,
  five_fitted o -> process st -> 0 <= t0 -> (t_out_format o = "csv" \/ t_out_format o = "json")%string ->
  (forall t, t0 <= t < tf -> exists R, alone o levels t R) ->
  t0 <= s < tf -> alone o levels s R0 -> rows R0 <> [] -> (forall t, t0 <= t < s -> ~ has_eddies o levels t) ->
  exists files T, run_returns o levels nt false st t0 tf files T /\ Permutation (rows T) (rows R0) /\
    (forall t, In t (map fst files) <-> s < t < tf /\ has_eddies o levels t) /\ StronglySorted Z.lt (map fst files) /\
    (forall t g, In (t, g) files -> exists R, alone o levels t R /\ rows g = rows R).
Proof.
  intros o levels nt st t0 tf s R0 H5 Hp H0 Hf Ha Hs HR0 HnR Hn. assert (N : tf <> 0) by lia. assert (Ps : 0 <= s) by lia. destruct (alone_inv _ _ _ _ H5 Ps HR0) as (f0 & Hf0 & Er0).
  assert (Hd : forall t, t0 <= t < tf -> exists f, detect_of o (Some levels) t = Ok f).
  { intros t Ht. destruct (Ha t Ht) as (R & HR). assert (Pt : 0 <= t) by lia. destruct (alone_inv _ _ _ _ H5 Pt HR) as (f & Hff & _). eauto. }
  destruct (C11_offline_writes_every_snapshot_refuted (t_query o) (t_keep o) (detect_of o (Some levels)) (t_out_format o) (steps_of o) t0 tf nt f0 s) as (files & T & A & B & C).
  - exact H0. - lia. - exact Hf. - exact Hd. - exact Hs. - exact Hf0. - intro X. rewrite X in Er0. contradiction.
  - intros t Ht. unfold found. assert (Pt : 0 <= t) by lia. destruct (Hd t) as (f & Hff); [lia|]. rewrite Hff. destruct (rows f) eqn:E; [reflexivity|]. exfalso. apply (Hn t Ht), has_eddies_at; [exact H5|exact Pt|]. exists f. rewrite E. split; [exact Hff|discriminate].
  - exists files, T. split; [unfold run_returns; rewrite tracking_time by assumption; exact A|]. split; [rewrite C, Er0; reflexivity|].
    set (F := fun t => match found (detect_of o (Some levels)) t with [] => [] | l => [(t, map (at_time t) l)] end) in B.
    assert (K : forall t rs, In (t, rs) (flat_map F (steps (s + 1) tf)) <-> s < t < tf /\ rs = map (at_time t) (found (detect_of o (Some levels)) t) /\ found (detect_of o (Some levels)) t <> []).
    { intros t rs. rewrite in_flat_map. change (steps (s + 1) tf) with (zrange (s + 1) tf). split.
      - intros (u & Hu & X). apply in_range in Hu. unfold F in X. destruct (found _ u) as [|r l] eqn:E; [destruct X|]. destruct X as [X|[]]. injection X as <- <-. rewrite E. split; [lia|]. split; [reflexivity|discriminate].
      - intros (X & -> & Y). exists t. split; [apply in_range; lia|]. unfold F. destruct (found _ t); [contradiction|left; reflexivity]. }
    assert (Kf : forall t g, In (t, g) files -> In (t, rows g) (flat_map F (steps (s + 1) tf))) by (intros t g Hg; rewrite <- B; apply in_map_iff; exists (t, g); auto).
    assert (Kt : forall t, s < t < tf -> (found (detect_of o (Some levels)) t <> [] <-> has_eddies o levels t)).
    { intros t Ht. rewrite has_eddies_at by (exact H5 || lia). unfold found, eddies_at. destruct (Hd t) as (f & ->); [lia|]. split; [intro; exists f; auto|intros (f' & X & Y); injection X as <-; exact Y]. }
    assert (Ef : map fst files = map fst (flat_map F (steps (s + 1) tf))) by (rewrite <- B, map_map; reflexivity).
    split; [|split].
    + intro t. rewrite Ef, in_map_iff. split.
      * intros ([u rs] & <- & X). apply K in X as (X & _ & Y). split; [exact X|]. apply Kt; assumption.
      * intros [X Y]. eexists (t, _). split; [reflexivity|]. apply K. split; [exact X|]. split; [reflexivity|]. apply Kt; assumption.
    + rewrite Ef. clear. change (steps (s + 1) tf) with (zrange (s + 1) tf). unfold zrange. generalize (Z.to_nat (tf - (s + 1))) as n. generalize 0%nat as a. intros a n. revert a.
      induction n as [|n IH]; intro a; [constructor|]. cbn [seq map flat_map]. rewrite map_app. specialize (IH (S a)).
      assert (G : forall u, In u (map fst (flat_map F (map (fun i => s + 1 + Z.of_nat i) (seq (S a) n)))) -> s + 1 + Z.of_nat a < u).
      { intros u Hu. apply in_map_iff in Hu as ([u' rs] & <- & Hu). apply in_flat_map in Hu as (v & Hv & Hu). apply in_map_iff in Hv as (i & <- & Hi). apply in_seq in Hi. unfold F in Hu. destruct (found _ _); [destruct Hu|]. destruct Hu as [Hu|[]]. injection Hu as <- _. cbn [fst]. lia. }
      unfold F at 1. destruct (found _ _); [exact IH|]. cbn [map app fst]. constructor; [exact IH|]. apply Forall_forall, G.
    + intros t g Hg. apply Kf, K in Hg as (X & Y & Z). destruct (Hd t) as (f & Hff); [lia|]. assert (Pt : 0 <= t) by lia. destruct (alone_of _ _ _ _ H5 Pt Hff) as (R & HR & Er). exists R. split; [exact HR|]. rewrite Y, Er. unfold found. rewrite Hff. reflexivity.
Qed.
Print Assumptions C87_offline_files.

(** *** concrete cases *)
(** The two steps of [ex_data]: one eddy that moves and one that appears; the levels are 0 (skipped) and 1/2 *)
Definition ex_levels := [Num 0; Num (1 # 2)].
Definition returned (x : outcome) : frame := match snd x with Ok R => R | Err _ => empty_frame end.
Lemma returns_of o ls nt online st t0 tf files : (exists b, brief (fst (tracking o t0 (Some tf) (Some ls) nt online st)) = Ok b) -> fst (fst (tracking o t0 (Some tf) (Some ls) nt online st)) = files ->
  run_returns o ls nt online st t0 tf files (returned (fst (tracking o t0 (Some tf) (Some ls) nt online st))).
Proof. intros (b & H) <-. unfold run_returns, returned, brief in *. destruct (fst (tracking _ _ _ _ _ _ _)) as [fs [R|e]]; [reflexivity|discriminate]. Qed.
Lemma ex_step d t l : (exists b, brief (fst (tracking (ex_tracker d) t (Some (t + 1)) (Some ex_levels) 1 true initial_state)) = Ok (l :: b)) -> fst (fst (tracking (ex_tracker d) t (Some (t + 1)) (Some ex_levels) 1 true initial_state)) = [] -> has_eddies (ex_tracker d) ex_levels t.
Proof.
  intros (b & H) F. exists (returned (fst (tracking (ex_tracker d) t (Some (t + 1)) (Some ex_levels) 1 true initial_state))). split; [apply returns_of; eauto|].
  unfold returned, brief in *. destruct (fst (tracking _ _ _ _ _ _ _)) as [fs [R|e]]; [|discriminate]. cbn in *. destruct (rows R); discriminate.
Qed.
Example C84_C85_C86_case : let o := ex_tracker ex_data in
  query_ok demo_hav (t_query o) /\ five_fitted o /\ process initial_state /\ selects (fun x => ~ zero x) ex_levels [Num (1 # 2)] /\
  (exists T R, run_returns o ex_levels 5 true initial_state 0 1 [] T /\ run_returns o ex_levels 5 true initial_state 0 2 [] R /\ rows T <> [] /\ length (rows R) = 39%nat) /\
  has_eddies o ex_levels 0 /\ has_eddies o ex_levels 1 /\ (forall NS, Forall2 (found_at o 1) [Num (1 # 2)] NS -> safe demo_hav [] NS).
Proof.
  cbv zeta. split; [exact demo_ok|]. split; [apply ex_five|]. split; [apply started|]. split; [|split; [|split; [|split]]].
  - apply sel_drop; [intro H; apply H; exists 0%Q; split; reflexivity|]. apply sel_keep; [|constructor]. intros (q & H & H0). injection H as <-. discriminate H0.
  - eexists _, _. split; [|split]; [apply returns_of; [eexists|]; vm_compute; reflexivity|apply returns_of; [eexists|]; vm_compute; reflexivity|]. split; [intro H; vm_compute in H; discriminate H|vm_compute; reflexivity].
  - eapply ex_step; [eexists|]; vm_compute; reflexivity.
  - eapply ex_step; [eexists|]; vm_compute; reflexivity.
  - intros NS H. inversion H as [|x N l NS' H1 H2]; subst. inversion H2; subst. cbn [safe]. split; [|intros; exact I]. intros d d' n n' k j _ _ _ Hk. destruct k; discriminate Hk.
Qed.
(** C86, the other side: with an empty step between two steps with eddies the run does not return *)
Example C86_gap : let o := ex_tracker [spots [(3, 3)]; spots []; spots [(3, 3)]] in
  (forall t, 0 <= t < 3 -> exists R, alone o ex_levels t R) /\ has_eddies o ex_levels 0 /\ ~ has_eddies o ex_levels 1 /\ has_eddies o ex_levels 2 /\ ~ exists R, run_returns o ex_levels 5 true initial_state 0 3 [] R.
Proof.
  cbv zeta. set (o := ex_tracker _). split; [|split; [|split; [|split]]].
  - intros t Ht. assert (t = 0 \/ t = 1 \/ t = 2) as [->|[->| ->]] by lia; eexists; apply returns_of; try (eexists; vm_compute; reflexivity); vm_compute; reflexivity.
  - eapply ex_step; [eexists|]; vm_compute; reflexivity.
  - intros (R & H & N). apply (f_equal (fun x => match snd x with Ok R => length (rows R) | _ => O end)) in H. cbn [snd] in H. apply N. destruct (rows R); [reflexivity|]. vm_compute in H. discriminate.
  - eapply ex_step; [eexists|]; vm_compute; reflexivity.
  - intros (R & H). apply (f_equal (fun x => match snd x with Ok _ => true | _ => false end)) in H. vm_compute in H. discriminate.
Qed.
(** C87: an empty step, the first eddy, an empty step, two eddies *)
Example C87_case : let o := ex_tracker [spots []; spots [(3, 3)]; spots []; spots [(4, 3); (3, 7)]] in
  five_fitted o /\ (forall t, 0 <= t < 4 -> exists R, alone o ex_levels t R) /\ has_eddies o ex_levels 1 /\ (forall t, 0 <= t < 1 -> ~ has_eddies o ex_levels t) /\
  map (fun p => (fst p, length (rows (snd p)))) (fst (fst (tracking o 0 (Some 4) (Some ex_levels) 5 false initial_state))) = [(3, 26%nat)].
Proof.
  cbv zeta. set (o := ex_tracker _). split; [apply ex_five|]. split; [|split; [|split]].
  - intros t Ht. assert (t = 0 \/ t = 1 \/ t = 2 \/ t = 3) as [->|[->|[->| ->]]] by lia; eexists; apply returns_of; try (eexists; vm_compute; reflexivity); vm_compute; reflexivity.
  - eapply ex_step; [eexists|]; vm_compute; reflexivity.
  - intros t Ht. assert (t = 0) as -> by lia. intros (R & H & N). apply (f_equal (fun x => match snd x with Ok R => length (rows R) | _ => O end)) in H. cbn [snd] in H. apply N. destruct (rows R); [reflexivity|]. vm_compute in H. discriminate.
  - vm_compute. reflexivity.
Qed.

(** Whole runs: contour extraction, snapshots, the data collected between calls, the time loop. *)
From Coq Require Import Lia Permutation.
From Verif Require Import M_Base M_Tables M_Area M_Eddy M_Detect M_Cntr M_Extract M_Window M_Pipeline S_Cntr S_Tracking S_Levels S_Detect S_Pipeline
  L_Base L_Eddy L_Detect L_Levels L_Levels2 L_Levels4 L_Levels5 L_Detect2 L_Detect3 L_Detect4 L_Run L_Run2 L_Track L_TrackProps P_Levels P_Cntr.
From Verif Require S_Turn L_Turn L_Cntr2 L_Cntr10.
Open Scope Z_scope.

Lemma lines_spec o x y z level cs : 0 <= m_rows num z -> 0 <= m_cols num z -> lines o x y z level = Ok cs ->
  exists curves, cs = map (map (vertex num (f_add (t_flops o)) (f_sub (t_flops o)) (f_mul (t_flops o)) (f_div (t_flops o)) x y z level)) curves /\
    Forall (is_curve (m_cols num z) (m_rows num z) (above_of num ngt z level)) curves /\ 1 <= m_rows num z /\ 1 <= m_cols num z /\
    (2 <= m_cols num z -> 2 <= m_rows num z -> forall e, side (m_cols num z) (m_rows num z) e -> crossed (above_of num ngt z level) e -> total_visits e curves = 1%nat) /\
    (exists t, (forall q, exists d, t q = L_Cntr10.mean_of (m_cols num z) (centre_of num (f_add (t_flops o)) (f_div (t_flops o)) (f_cst (t_flops o) 4) ngt z level) d (L_Cntr2.flat (m_cols num z) (fst q + 1, snd q + 1))) /\
      Forall (cuts_off (m_cols num z) (m_rows num z) (above_of num ngt z level) t) curves) /\
    Forall (fun c => closed_curve c -> S_Turn.higher_left (m_cols num z) (above_of num ngt z level) c) curves.
Proof.
  intros Hr Hc H. unfold lines in H.
  destruct (extract_contours _ _ _ _ _ _ _ _ _ _ _ _ _ _) as [[segs codes]|e] eqn:E; [|discriminate]. cbn [bind] in H. injection H as <-.
  assert (M : meshed x y z).
  { assert (E' := E). unfold extract_contours, trace, cntr_init in E'.
    destruct (m_rows num x =? m_rows num z) eqn:E1; [|discriminate]. destruct (m_cols num x =? m_cols num z) eqn:E2; [|discriminate].
    destruct (m_rows num y =? m_rows num z) eqn:E3; [|discriminate]. destruct (m_cols num y =? m_cols num z) eqn:E4; [|discriminate].
    apply Z.eqb_eq in E1, E2, E3, E4. clear E'. repeat split; try assumption.
    - destruct (Z.eq_dec (m_rows num z) 0) as [Z0|Z0]; [|lia]. rewrite C64_empty_mesh_refuted in E by (try assumption; rewrite Z0; reflexivity). discriminate.
    - destruct (Z.eq_dec (m_cols num z) 0) as [Z0|Z0]; [|lia]. rewrite C64_empty_mesh_refuted in E by (try assumption; rewrite Z0; lia). discriminate. }
  assert (F : enough z (rounds z)) by (unfold enough, rounds; destruct M as (_ & _ & _ & _ & ? & ?); rewrite Z2Nat.id; nia).
  destruct (master num (f_add (t_flops o)) (f_sub (t_flops o)) (f_mul (t_flops o)) (f_div (t_flops o)) (f_cst (t_flops o) 4) ngt neqb (rounds z) (t_garbage o z level) x y z level M F)
    as (T & curves & cd & E' & _ & Et & HT & Fc & Tv & Cu).
  rewrite E' in E. injection E as <- _. exists curves. unfold drawn. rewrite map_map. cbn [vertices]. destruct M as (_ & _ & _ & _ & M1 & M2). do 5 (split; [auto|]). split; [exists (fun c => T (fst c + 1, snd c + 1)); split; [intro q; apply HT|exact Cu]|].
  apply Forall_forall. intros c Ic. apply (L_Turn.trace_sides _ _ _ _ _ _ _ M2 M1 F Et c Ic).
Qed.

Lemma mean_middle o f level d cell : exists v, middle_value o f cell v /\
  L_Cntr10.mean_of (width f) (centre_of num (f_add (t_flops o)) (f_div (t_flops o)) (f_cst (t_flops o) 4) ngt (array_of f) level) d (L_Cntr2.flat (width f) (fst cell + 1, snd cell + 1)) = ngt v level.
Proof.
  unfold middle_value, corner, L_Cntr10.mean_of, centre_of, L_Cntr2.flat. cbn [fst snd]. set (w := width f). set (k := fst cell + 1 + (snd cell + 1) * w).
  replace (fst cell + 0 + (snd cell + 0) * w) with (k - w - 1) by (unfold k; ring). replace (fst cell + 1 + (snd cell + 0) * w) with (k - w) by (unfold k; ring). replace (fst cell + 0 + (snd cell + 1) * w) with (k - 1) by (unfold k; ring).
  change (fst cell + 1 + (snd cell + 1) * w) with k. cbn [array_of m_at]. set (v00 := nth (Z.to_nat (k - w - 1)) _ _). set (v10 := nth (Z.to_nat (k - w)) _ _). set (v01 := nth (Z.to_nat (k - 1)) _ _). set (v11 := nth (Z.to_nat k) _ _).
  destruct d; eexists; (split; [|reflexivity]).
  - exists v10, v00, v11, v01. split; [|reflexivity]. apply (perm_trans (perm_swap _ _ _)). do 2 apply perm_skip. apply perm_swap.
  - exists v01, v11, v00, v10. split; [|reflexivity]. change [v01; v11; v00; v10] with ([v01; v11] ++ [v00; v10])%list. apply Permutation_app_comm.
  - exists v00, v01, v10, v11. split; [|reflexivity]. apply perm_skip, perm_swap.
  - exists v11, v10, v01, v00. split; [|reflexivity]. apply (perm_trans (Permutation_cons_append [v10; v01; v00] v11)). symmetry. apply (Permutation_middle [v10; v01] [v11] v00).
Qed.
Lemma contours_at_spec o d level cs : contours_at o d level = Ok cs ->
  exists f, d = Some f /\ contour_lines o f level cs /\ Forall (contour_line o f level) cs /\ Forall (fun c => c <> []) cs.
Proof.
  destruct d as [f|]; [|discriminate]. unfold contours_at. destruct (_ || _)%bool eqn:Eb; [discriminate|]. intro H. exists f. split; [reflexivity|].
  apply Bool.orb_false_iff in Eb as [E1 E2]. apply Nat.eqb_neq in E1, E2.
  destruct (lines_spec o (array_of (numbers (t_X o))) (array_of (numbers (t_Y o))) (array_of f) level cs) as (curves & -> & Fc & R1 & C1 & Tv & (T & HT & Cu) & Hl); [cbn; lia|cbn; lia|exact H|].
  cbn [array_of m_rows m_cols] in *.
  assert (Ep : forall e, vertex num (f_add (t_flops o)) (f_sub (t_flops o)) (f_mul (t_flops o)) (f_div (t_flops o)) (array_of (numbers (t_X o))) (array_of (numbers (t_Y o))) (array_of f) level e = position o f level e).
  { intros [p q]. reflexivity. }
  split; [|split].
  - exists curves. split; [exact Fc|]. split; [apply map_ext; intro; apply map_ext, Ep|]. split; [intros e; apply Tv; lia|]. split; [|exact Hl]. exists T. split; [|exact Cu]. intro cell. destruct (HT cell) as [d ->]. apply mean_middle.
  - rewrite Forall_map. refine (Forall_impl _ _ Fc). intros c Hc. exists c. split; [exact Hc|apply map_ext, Ep].
  - rewrite Forall_map. refine (Forall_impl _ _ Fc). intros c Hc. pose proof (cv_length _ _ _ _ Hc). destruct c; [cbn in *; lia|discriminate].
Qed.

(** States reached by calls that did not raise *)
Definition settled (st : state) : Prop := exists h, Forall proper h /\ clean h initial_state st.
Lemma settled_initial : settled initial_state.
Proof. exists []. split; [constructor|reflexivity]. Qed.
Lemma settled_run st k RD st' : settled st -> proper k -> run k st = (Ok RD, st') -> settled st'.
Proof.
  intros (h & A & B) Hk Hr. exists (h ++ [k]). split; [apply Forall_app; split; [exact A|repeat constructor; apply Hk]|eapply clean_app; eauto].
Qed.

Definition settings (o : tracker) (f : grid num) (level : num) : setting :=
  mkSetting (t_flops o) (t_rossby o) (t_fit_ellipse o) (t_eccentricity o) (t_similarity o) (data_in_contour (t_tree o) (t_X o) (t_Y o) f) (fitted o f level)
    (t_criteria o) (t_skip_gaussian_fit o).
Lemma settings_ok o f level : conditions o f level (settings o f level).
Proof.
  split; try reflexivity. intro c. split.
  - intros e E. cbn [settings s_gauss_fit]. unfold fitted. rewrite E. reflexivity.
  - intros g x y z E R C. cbn [settings s_gauss_fit]. unfold fitted. rewrite E. cbn [bind fst snd]. destruct (_ && _ && _ && _)%bool eqn:S.
    + apply Bool.andb_true_iff in S as [S S4]. apply Bool.andb_true_iff in S as [S S3]. apply Bool.andb_true_iff in S as [S1 S2]. apply Z.eqb_eq in S1, S2, S3, S4.
      assert (M : meshed x y z) by (repeat split; assumption || lia).
      destruct (lines o x y z level) as [cs|e] eqn:El.
      * exists cs. split; [reflexivity|]. destruct (lines_spec o x y z level cs) as (curves & -> & Fc & _ & _ & Tv & _); [lia|lia|exact El|]. exists curves. split; [exact Fc|]. split; [|exact Tv].
        apply map_ext. intro k. apply map_ext. intros [p q]. reflexivity.
      * exfalso. unfold lines in El. assert (F : enough z (rounds z)) by (unfold enough, rounds; rewrite Z2Nat.id; nia).
        destruct (C64_tracing_stays_inside_the_arrays num (f_add (t_flops o)) (f_sub (t_flops o)) (f_mul (t_flops o)) (f_div (t_flops o)) (f_cst (t_flops o) 4) ngt neqb (rounds z) (t_garbage o z level) x y z level M F) as (a & b & Ex).
        rewrite Ex in El. discriminate.
    + unfold lines, extract_contours, trace, cntr_init. rewrite S. reflexivity.
Qed.
Lemma select_selected l t g : select l t = Ok g <-> selected (Series l) t g.
Proof.
  unfold select, selected. destruct (Z.ltb_spec t 0) as [Ht|Ht].
  - destruct (Z.ltb_spec (t + Z.of_nat (length l)) 0) as [Hn|Hn]; [split; [discriminate|intros [[? _]|[_ [? _]]]; lia]|].
    destruct (nth_error l (Z.to_nat (t + Z.of_nat (length l)))) as [g'|]; split; intro H.
    + injection H as <-. right. auto.
    + destruct H as [[? _]|[_ [_ H]]]; [lia|congruence].
    + discriminate.
    + destruct H as [[? _]|[_ [_ H]]]; [lia|congruence].
  - destruct (Z.ltb_spec t 0); [lia|]. destruct (nth_error l (Z.to_nat t)) as [g'|]; split; intro H'.
    + injection H' as <-. left. auto.
    + destruct H' as [[_ H']|[? _]]; [congruence|lia].
    + discriminate.
    + destruct H' as [[_ H']|[? _]]; [congruence|lia].
Qed.
Lemma select_err l t e : select l t = Err e -> e = IndexError.
Proof. unfold select. repeat match goal with |- context [if ?b then _ else _] => destruct b end; try congruence; destruct (nth_error _ _); congruence. Qed.
Lemma data2track_field o t f : data2track o t = Ok (Some f) -> field_at o t f.
Proof.
  unfold data2track, field_at. destruct (t_data o) as [l|g]; cbn [bind].
  - destruct (select l t) as [g|] eqn:E; [|discriminate]. cbn [bind]. intro H. exists g. split; [apply select_selected, E|exact H].
  - intro H. exists g. split; [reflexivity|exact H].
Qed.
Lemma settings_five o f level : five_fitted o -> five_parameters (settings o f level).
Proof.
  intros H c g gc E. cbn [settings s_gauss_fit] in E. unfold fitted in E. destruct (t_surface o f level c) as [[g' s]|] eqn:Es; [|discriminate]. cbn [bind] in E.
  destruct (lines _ _ _ _ _); [|discriminate]. cbn [bind] in E. injection E as <- <-. eapply H; eauto.
Qed.

Section Detect.
Variable o : tracker.
Hypothesis H5 : five_fitted o.

Lemma detect_level_run f level cs st : contours_at o (Some f) level = Ok cs ->
  detect_level o (Some f) level st = run (mkCall (settings o f level) level cs) st /\ proper (mkCall (settings o f level) level cs).
Proof.
  intro E. split; [unfold detect_level; rewrite E; reflexivity|].
  destruct (contours_at_spec _ _ _ _ E) as (f' & Ef & _ & _ & Hn). split; [apply settings_five, H5|exact Hn].
Qed.

(** One level: the table does not depend on the state, and is that of the contour lines that pass the checks. *)
Definition found_in (d : option (grid num)) (level : num) (N : list eddy) : Prop :=
  exists f cs fs, d = Some f /\ contour_lines o f level cs /\ Forall2 (is_judged (settings o f level) level) cs fs /\ Forall (contour_line o f level) cs /\ N = kept fs.
Lemma detect_level_spec d level st : settled st ->
  match detect_level o d level st with
  | (Ok (R, _), st') => settled st' /\ exists N, found_in d level N /\ R = level_table N
  | (Err _, _) => True
  end.
Proof.
  intro Hs. unfold detect_level. destruct (contours_at o d level) as [cs|e] eqn:E; [|exact I]. destruct (contours_at_spec _ _ _ _ E) as (f & -> & Hl & Hc & Hn).
  destruct (detect_level_run f level cs st E) as [Er Hp]. unfold detect_level in Er. rewrite E in Er. rewrite Er.
  destruct Hs as (h & A & B). assert (H := run_clean h st _ A B Hp).
  destruct (run _ st) as [[[R D]|e] st'] eqn:E'; [|exact I]. destruct H as (F & fs & _ & Hf & -> & _). split.
  - eapply settled_run; [exists h; split; [exact A|exact B]|exact Hp|exact E'].
  - exists (kept fs). split; [|reflexivity]. exists f, cs, fs. auto.
Qed.
Definition same_result {A B} (x y : res (A * B)) : Prop :=
  match x, y with Ok (a, _), Ok (a', _) => a = a' | Err e, Err e' => e = e' | _, _ => False end.
Lemma detect_level_indep d level st : settled st -> same_result (fst (detect_level o d level st)) (fst (detect_level o d level initial_state)).
Proof.
  intros (h & A & B). unfold detect_level. destruct (contours_at o d level) as [cs|e] eqn:E; [|reflexivity]. destruct (contours_at_spec _ _ _ _ E) as (f & -> & _).
  destruct (detect_level_run f level cs st E) as [Er Hp]. destruct (detect_level_run f level cs initial_state E) as [Er0 _]. unfold detect_level in Er, Er0. rewrite E in Er, Er0. rewrite Er, Er0.
  exact (run_state_independent h st _ A B Hp).
Qed.

(** A snapshot *)
Lemma snapshot_loop_spec d ls : forall joint st R st', settled st ->
  snapshot_loop (t_query o) (t_keep o) (detect_level o d) joint ls st = (Ok R, st') ->
  settled st' /\ exists NS, Forall2 (found_in d) ls NS /\ level_loop (t_query o) (t_keep o) joint (map (fun N => Ok (level_table N)) NS) = Ok R.
Proof.
  induction ls as [|l ls IH]; intros joint st R st' Hs H; cbn [snapshot_loop] in H.
  - injection H as <- <-. split; [exact Hs|]. exists []. split; [constructor|reflexivity].
  - assert (D := detect_level_spec d l st Hs). destruct (detect_level o d l st) as [[[cur x]|e] st1]; [|discriminate].
    destruct D as (Hs1 & N & HN & ->).
    assert (K : forall j, snapshot_loop (t_query o) (t_keep o) (detect_level o d) j ls st1 = (Ok R, st') ->
       (forall rest, level_loop (t_query o) (t_keep o) joint (Ok (level_table N) :: rest) = level_loop (t_query o) (t_keep o) j rest) ->
       settled st' /\ exists NS, Forall2 (found_in d) (l :: ls) NS /\ level_loop (t_query o) (t_keep o) joint (map (fun N => Ok (level_table N)) NS) = Ok R).
    { intros j Hj El. destruct (IH _ _ _ _ Hs1 Hj) as (A & NS & B & C). split; [exact A|]. exists (N :: NS). split; [constructor; assumption|]. cbn [map]. rewrite El. exact C. }
    destruct (empty (level_table N)) eqn:E1; [apply (K joint H); intro; cbn [level_loop bind]; rewrite E1; reflexivity|].
    destruct (empty joint) eqn:E2; [apply (K _ H); intro; cbn [level_loop bind]; rewrite E1, E2; reflexivity|].
    destruct (detect_nearest (t_query o) joint (level_table N)) as [[ix nr]|e] eqn:E3; cbn [bind] in H; [|discriminate].
    destruct (update_better_eddy joint (level_table N) ix nr) as [[j c]|e] eqn:E4; cbn [bind] in H; [|discriminate].
    destruct (merge_reindex (t_keep o) j c) as [m|e] eqn:E5; [|discriminate].
    apply (K _ H). intro. cbn [level_loop bind]. rewrite E1, E2, E3. cbn [bind]. rewrite E4. cbn [bind]. rewrite E5. reflexivity.
Qed.
Lemma snapshot_loop_indep d ls : forall joint st, settled st ->
  fst (snapshot_loop (t_query o) (t_keep o) (detect_level o d) joint ls st) = fst (snapshot_loop (t_query o) (t_keep o) (detect_level o d) joint ls initial_state).
Proof.
  induction ls as [|l ls IH]; intros joint st Hs; cbn [snapshot_loop]; [reflexivity|].
  assert (D := detect_level_spec d l st Hs). assert (D0 := detect_level_spec d l initial_state settled_initial). assert (I := detect_level_indep d l st Hs).
  destruct (detect_level o d l st) as [[[cur x]|e] st1], (detect_level o d l initial_state) as [[[cur0 x0]|e0] st0]; cbn [fst same_result] in I; try contradiction; [|subst; reflexivity].
  subst cur0. destruct D as [D _], D0 as [D0 _].
  assert (K : forall j, fst (snapshot_loop (t_query o) (t_keep o) (detect_level o d) j ls st1) = fst (snapshot_loop (t_query o) (t_keep o) (detect_level o d) j ls st0)).
  { intro j. rewrite (IH j st1 D), (IH j st0 D0). reflexivity. }
  destruct (empty cur); [apply K|]. destruct (empty joint); [apply K|].
  destruct (do (index, nearest) <- detect_nearest (t_query o) joint cur; do (j, c) <- update_better_eddy joint cur index nearest; merge_reindex (t_keep o) j c); [apply K|reflexivity].
Qed.
Lemma snapshot_spec ls t st R st' : settled st -> snapshot o (Some ls) t st = (Ok R, st') ->
  settled st' /\ exists d NS, data2track o t = Ok d /\ Forall2 (found_in d) (nonzero_levels ls) NS /\ scan (t_query o) (t_keep o) NS = Ok R.
Proof.
  intros Hs H. unfold snapshot in H. destruct (data2track o t) as [d|e] eqn:E; [|discriminate]. unfold detect_snapshot in H.
  destruct (snapshot_loop_spec _ _ _ _ _ _ Hs H) as (A & NS & B & C). split; [exact A|]. exists d, NS. auto.
Qed.
Lemma snapshot_settled ls t st R st' : settled st -> snapshot o ls t st = (Ok R, st') -> settled st'.
Proof. intros Hs H. destruct ls as [ls|]; [|discriminate]. apply (snapshot_spec ls t st R st' Hs H). Qed.
Lemma snapshot_indep ls t st : settled st -> fst (snapshot o ls t st) = fst (snapshot o ls t initial_state).
Proof.
  intros Hs. destruct ls as [ls|]; [|reflexivity]. unfold snapshot. destruct (data2track o t); [|reflexivity]. apply snapshot_loop_indep, Hs.
Qed.

(** The loop over time *)
Definition detect_of (ls : option (list num)) (t : Z) : res frame := fst (snapshot o ls t initial_state).
Lemma loop_stateless ls online tf nt ts : forall track files st, settled st ->
  fst (loop o ls online tf nt ts track files st) = tt_loop (t_query o) (t_keep o) (detect_of ls) online (t_out_format o) tf nt ts track files /\
  (forall out R st', loop o ls online tf nt ts track files st = ((out, Ok R), st') -> settled st').
Proof.
  induction ts as [|t ts IH]; intros track files st Hs; cbn [loop tt_loop].
  - split; [reflexivity|]. intros out R st' H. injection H as <- <- <-. exact Hs.
  - unfold detect_of at 1. rewrite <- (snapshot_indep ls t st Hs). assert (S := snapshot_settled ls t st).
    destruct (snapshot o ls t st) as [[cur|e] st1]; cbn [fst]; [|split; [reflexivity|discriminate]]. specialize (S cur st1 Hs eq_refl).
    destruct (empty cur); [apply IH, S|]. destruct (empty track); [apply IH, S|]. destruct online.
    + destruct (track_online (t_query o) (t_keep o) track (stamp t cur) t nt); [|split; [reflexivity|discriminate]]. destruct (print_check tf t); [apply IH, S|split; [reflexivity|discriminate]].
    + destruct (store_effect (t_out_format o)); [|split; [reflexivity|discriminate]]. cbv zeta. destruct (print_check tf t); [apply IH, S|split; [reflexivity|discriminate]].
Qed.
Lemma tracking_stateless t0 tf ls nt online st : settled st ->
  fst (tracking o t0 tf ls nt online st) = (match times o t0 tf with Err e => ([], Err e) | Ok ts => tt_loop (t_query o) (t_keep o) (detect_of ls) online (t_out_format o) tf nt ts empty_frame [] end) /\
  (forall out R st', tracking o t0 tf ls nt online st = ((out, Ok R), st') -> settled st').
Proof.
  intro Hs. unfold tracking. destruct (times o t0 tf) as [ts|e]; [apply loop_stateless, Hs|split; [reflexivity|discriminate]].
Qed.
End Detect.

Lemma process_settled st : process st -> settled st.
Proof.
  induction 1 as [|o t0 tf ls nt online st files R st' H5 _ IH H]; [apply settled_initial|].
  destruct (tracking_stateless o H5 t0 tf ls nt online st IH) as [_ S]. eapply S; eauto.
Qed.

(** C79-C82: whole runs *)
From Coq Require Import Lia Permutation.
From Verif Require Import M_Base M_Tables M_Area M_Eddy M_Detect M_Cntr M_Extract M_Window M_Pipeline S_Cntr S_Tracking S_Levels S_Detect S_Pipeline
  L_Base L_Levels L_Levels2 L_Levels5 L_Detect3 L_Detect4 L_Tables L_Track L_Step L_Run L_Run2 L_TrackProps L_Pipeline L_Witness L_Window4 P_Levels P_Tracking P_Cntr P_Detect.
Open Scope Z_scope.

(** *** lemmas *)
Lemma data_numbers tree X Y f c sgn v y x : data_in_contour tree X Y f c = Ok (sgn, (v, y, x)) -> exists q p, y = Num q /\ x = Num p.
Proof.
  unfold data_in_contour. destruct (grid_cells tree X Y c) as [cells|]; [|discriminate]. cbn [bind]. destruct (M_Window.window _ _ cells) as [[[bl tr] rel]|]; [|discriminate]. cbn [bind].
  destruct (M_Window.mask_data rel _) as [[[m s] [[v' yi] xi]]|]; [|discriminate]. cbn [bind]. destruct (at_ _ yi xi) as [p|]; [|discriminate]. destruct (at_ _ yi xi) as [q|]; [|discriminate].
  intro H. injection H as _ _ <- <-. eauto.
Qed.
Lemma record_ok o f level s c e : conditions o f level s -> c <> [] -> record_of s level c e -> eddy_ok e.
Proof.
  intros Hs Hc (el & a & b & th & err & sgn & v & y & x & g & gerr & _ & _ & D & _ & ->). rewrite (cd_data _ _ _ _ Hs) in D. destruct (data_numbers _ _ _ _ _ _ _ _ _ D) as (q & p & -> & ->).
  destruct c as [|z c]; [congruence|]. exists (q, p). cbn [map]. eexists. eexists. split; [reflexivity|]. split; reflexivity.
Qed.
Lemma line_ne o f level c : contour_line o f level c -> c <> [].
Proof. intros (curve & Hc & ->). pose proof (cv_length _ _ _ _ Hc). destruct curve; [cbn in *; lia|discriminate]. Qed.
Lemma lines_line o f level cs c : contour_lines o f level cs -> In c cs -> contour_line o f level c.
Proof. intros (curves & F & -> & _) H. apply in_map_iff in H as (k & <- & Hk). rewrite Forall_forall in F. exists k. split; [apply F, Hk|reflexivity]. Qed.
Lemma kept_judged s l cs fs e : Forall2 (is_judged s l) cs fs -> In e (kept fs) -> exists c, In c cs /\ is_judged s l c (Kept e).
Proof.
  induction 1 as [|c f cs fs H _ IH]; [intros []|]. intro He. unfold kept in He. cbn [flat_map] in He. apply in_app_or in He as [He|He].
  - destruct f; [destruct He|destruct He as [<-|[]]|destruct He]. exists c. split; [left; reflexivity|exact H].
  - destruct (IH He) as (c' & A & B). exists c'. split; [right; exact A|exact B].
Qed.
Lemma found_detection o t level N e : found_at o t level N -> In e N -> exists f s c, field_at o t f /\ contour_line o f level c /\ conditions o f level s /\ is_accepted s c /\ record_of s level c e.
Proof.
  intros (f & s & cs & fs & A & S & B & C & ->) He. destruct (kept_judged _ _ _ _ _ C He) as (c & Hc & [D E]). exists f, s, c. split; [exact A|]. split; [eapply lines_line; eauto|]. split; [exact S|]. split; assumption.
Qed.
Lemma found_ok o t level N : found_at o t level N -> Forall eddy_ok N.
Proof. intro H. apply Forall_forall. intros e He. destruct (found_detection _ _ _ _ _ H He) as (f & s & c & _ & A & S & _ & B). eapply record_ok; [exact S|eapply line_ne; eauto|exact B]. Qed.
Lemma Forall2_right {A B} (P : A -> B -> Prop) (Q : B -> Prop) l l' : (forall a b, P a b -> Q b) -> Forall2 P l l' -> Forall Q l'.
Proof. intros H. induction 1; constructor; eauto. Qed.
Lemma Forall2_In_r {A B} (P : A -> B -> Prop) l l' b : Forall2 P l l' -> In b l' -> exists a, In a l /\ P a b.
Proof. induction 1 as [|a b' l l' H _ IH]; intros []; [subst; exists a; split; [left; reflexivity|exact H]|]. destruct IH as (a' & ? & ?); [assumption|]. exists a'. split; [right; assumption|assumption]. Qed.
Lemma choose {A} (P : Z -> A -> Prop) (dflt : A) ts : (forall t, In t ts -> exists x, P t x) -> exists F, forall t, In t ts -> P t (F t).
Proof.
  induction ts as [|t ts IH]; intro H; [exists (fun _ => dflt); intros t []|]. destruct IH as (F & HF); [intros; apply H; right; assumption|]. destruct (H t (or_introl eq_refl)) as (x & Hx).
  exists (fun s => if s =? t then x else F s). intros s Hs. destruct (Z.eqb_spec s t) as [->|N]; [exact Hx|]. destruct Hs as [->|Hs]; [congruence|apply HF, Hs].
Qed.
Lemma flat_map_perm {A B} (f g : A -> list B) l : (forall x, In x l -> Permutation (f x) (g x)) -> Permutation (flat_map f l) (flat_map g l).
Proof. induction l as [|x l IH]; intro H; [constructor|]. cbn. apply Permutation_app; [apply H; left; reflexivity|apply IH; intros; apply H; right; assumption]. Qed.
Lemma loop_all_Ok query keep detect online fmt tf nt ts : forall track files out R, tt_loop query keep detect online fmt tf nt ts track files = (out, Ok R) -> forall t, In t ts -> exists f, detect t = Ok f.
Proof.
  induction ts as [|t ts IH]; intros track files out R H s []; cbn [tt_loop] in H.
  - subst s. destruct (detect t) as [f|]; [eauto|discriminate].
  - destruct (detect t) as [cur|]; [|discriminate]. destruct (empty cur); [eapply IH; eauto|]. destruct (empty track); [eapply IH; eauto|]. cbv zeta in H. destruct online.
    + destruct (track_online _ _ _ _ _ _); [|discriminate]. destruct (print_check tf t); [|discriminate]. eapply IH; eauto.
    + destruct (store_effect fmt); [|discriminate]. destruct (print_check tf t); [|discriminate]. eapply IH; eauto.
Qed.
Lemma times_steps o t0 tf ts : times o t0 tf = Ok ts -> ts = run_steps o t0 tf /\ NoDup ts.
Proof.
  unfold times, run_steps, tt_times. destruct (t_data o) as [l|g], tf as [n|]; try discriminate.
  - intro H. injection H as <-. destruct (n =? 0); split; try reflexivity; apply zrange_NoDup.
  - intro H. injection H as <-. split; [reflexivity|apply zrange_NoDup].
  - destruct (n =? 0) eqn:E; [discriminate|]. intro H. injection H as <-. split; [reflexivity|apply zrange_NoDup].
Qed.

(** What a run that returned did at its steps *)
Lemma run_facts o hav t0 tf levels nt st files R st' : query_ok hav (t_query o) -> five_fitted o -> process st ->
  tracking o t0 tf (Some levels) nt true st = ((files, Ok R), st') ->
  files = [] /\ state_wf R /\
  exists (f : Z -> frame) (NS : Z -> list (list eddy)) lab,
    (forall t, In t (run_steps o t0 tf) -> Forall2 (found_at o t) (nonzero_levels levels) (NS t) /\ scan (t_query o) (t_keep o) (NS t) = Ok (f t)) /\
    Permutation (rows R) (flat_map (fun t => map (fun r => with_id (at_time t r) (lab t (r_id r))) (rows (f t))) (run_steps o t0 tf)).
Proof.
  intros Hq H5 Hp H. apply process_settled in Hp. destruct (tracking_stateless o H5 t0 tf (Some levels) nt true st Hp) as [E _]. rewrite H in E. cbn [fst] in E.
  destruct (times o t0 tf) as [ts|] eqn:Et; [|discriminate]. destruct (times_steps _ _ _ _ Et) as [-> ND]. symmetry in E.
  assert (A : forall t g, detect_of o (Some levels) t = Ok g -> exists NS, Forall2 (found_at o t) (nonzero_levels levels) NS /\ scan (t_query o) (t_keep o) NS = Ok g).
  { intros t g Hg. unfold detect_of in Hg. destruct (snapshot o (Some levels) t initial_state) as [r s] eqn:Es. cbn [fst] in Hg. subst r.
    destruct (snapshot_spec o H5 levels t initial_state g s settled_initial Es) as (_ & d & NS & D & F & S). exists NS. split; [|exact S].
    clear S. induction F as [|l N ls NS' Hh _ IH]; constructor; [|exact IH]. destruct Hh as (f & cs & fs & -> & B & C & _ & ->). exists f, (settings o f l), cs, fs. split; [apply data2track_field, D|]. split; [apply settings_ok|]. auto. }
  assert (G : Forall (L_Run.good (detect_of o (Some levels))) (run_steps o t0 tf)).
  { apply Forall_forall. intros t _ g Hg. destruct (A t g Hg) as (NS & F & S). eapply C14_snapshot_shape; [|exact S]. eapply Forall2_right; [|exact F]. intros. eapply found_ok; eauto. }
  destruct (run_inv hav (t_query o) Hq (t_keep o) (detect_of o (Some levels)) (t_out_format o) tf nt _ _ _ _ _ ND G (or_introl eq_refl) E) as (-> & W & _ & lab & P).
  split; [reflexivity|]. split; [exact W|]. cbn [rows empty_frame app] in P.
  destruct (choose (fun t gn => detect_of o (Some levels) t = Ok (fst gn) /\ Forall2 (found_at o t) (nonzero_levels levels) (snd gn) /\ scan (t_query o) (t_keep o) (snd gn) = Ok (fst gn)) (empty_frame, []) (run_steps o t0 tf)) as (F & HF).
  { intros t Ht. destruct (loop_all_Ok _ _ _ _ _ _ _ _ _ _ _ _ E t Ht) as (g & Hg). destruct (A t g Hg) as (NS & F & S). exists (g, NS). auto. }
  exists (fun t => fst (F t)), (fun t => snd (F t)), lab. split; [intros t Ht; apply (HF t Ht)|].
  rewrite P. apply flat_map_perm. intros t Ht. unfold L_Run.labelled, snap_rows. destruct (HF t Ht) as (-> & _). reflexivity.
Qed.
Lemma rows_relabelled t lab id e : map (fun r => with_id (at_time t r) (lab (r_id r))) (contour_rows id e) = rows_at t (lab id) e.
Proof. unfold rows_at, contour_rows. rewrite !map_map. apply map_ext. intros [i c]. reflexivity. Qed.

(** *** C79 *)
(** A run that returned: its table consists, step by step, of whole records of contour lines of the filtered field that pass all checks, at levels that are
    not zero, each at most once; the identifiers are 0, 1, .., n - 1 and the rows are in order. *)
Theorem C79_table_of_a_run : forall o hav t0 tf levels nt st files R st',
  query_ok hav (t_query o) -> five_fitted o -> process st ->
  tracking o t0 tf (Some levels) nt true st = ((files, Ok R), st') ->
  (exists chosen : Z -> list (Z * eddy),
     Permutation (rows R) (flat_map (fun t => flat_map (fun p => rows_at t (fst p) (snd p)) (chosen t)) (run_steps o t0 tf)) /\
     forall t, In t (run_steps o t0 tf) -> exists sel found rest,
       selects (fun x => ~ zero x) levels sel /\ Forall2 (found_at o t) sel found /\ Permutation (List.concat found) (map snd (chosen t) ++ rest)) /\
  (exists n, contiguous (rows R) n) /\ sorted_table (rows R) /\ files = [].
Proof.
  intros o hav t0 tf levels nt st files R st' Hq H5 Hp H. destruct (run_facts _ _ _ _ _ _ _ _ _ _ Hq H5 Hp H) as (-> & W & f & NS & lab & F & P). split; [|split; [|split; [|reflexivity]]].
  - destruct (choose (fun t ch => exists rest, Permutation (rows (f t)) (flat_map (fun p => contour_rows (fst p) (snd p)) ch) /\ Permutation (List.concat (NS t)) (map snd ch ++ rest)) [] (run_steps o t0 tf)) as (ch & Hch).
    { intros t Ht. destruct (F t Ht) as [_ S]. destruct (C14_eddies_stay_whole _ _ _ _ S) as (ch & rest & A & B). eauto. }
    exists (fun t => map (fun p => (lab t (fst p), snd p)) (ch t)). split.
    + rewrite P. apply flat_map_perm. intros t Ht. destruct (Hch t Ht) as (rest & A & _). rewrite (Permutation_map (fun r => with_id (at_time t r) (lab t (r_id r))) A).
      clear A. induction (ch t) as [|[id e] l IH]; [constructor|]. cbn [flat_map map fst snd]. rewrite map_app, (rows_relabelled t (lab t)). apply Permutation_app_head, IH.
    + intros t Ht. destruct (F t Ht) as [A _], (Hch t Ht) as (rest & _ & B). exists (nonzero_levels levels), (NS t), rest. split; [apply nonzero_selects|]. split; [exact A|]. rewrite map_map. exact B.
  - destruct W as [->|(n & [_ _ H3 _ _ _])]; [exists 0%nat; intro i; cbn; split; [intros (r & [] & _)|lia]|exists n; apply used_contiguous, H3].
  - destruct W as [->|(n & W)]; [constructor|apply W].
Qed.
Print Assumptions C79_table_of_a_run.

(** Every row: the contour line it belongs to, and all of that contour's other rows are there too. *)
Lemma selects_In P l l' (x : num) : selects P l l' -> In x l' -> In x l /\ P x.
Proof. induction 1; intro Hx; [destruct Hx|destruct Hx as [<-|Hx]; [split; [left; reflexivity|assumption]|]|]; (destruct IHselects; [assumption|]; split; [right; assumption|assumption]). Qed.
Theorem C79_every_row_is_a_vertex_of_an_accepted_contour : forall o hav t0 tf levels nt st files R st' r,
  query_ok hav (t_query o) -> five_fitted o -> process st ->
  tracking o t0 tf (Some levels) nt true st = ((files, Ok R), st') -> In r (rows R) ->
  In (r_time r) (run_steps o t0 tf) /\
  exists e, detection o levels (r_time r) e /\ In r (rows_at (r_time r) (r_id r) e) /\ incl (rows_at (r_time r) (r_id r) e) (rows R).
Proof.
  intros o hav t0 tf levels nt st files R st' r Hq H5 Hp H Hr. destruct (C79_table_of_a_run _ _ _ _ _ _ _ _ _ _ Hq H5 Hp H) as [(ch & P & F) _].
  assert (Hr' := Permutation_in _ P Hr). apply in_flat_map in Hr' as (t & Ht & Hr'). apply in_flat_map in Hr' as ([id e] & He & Hr'). cbn [fst snd] in Hr'.
  assert (Ei : r_time r = t /\ r_id r = id).
  { unfold rows_at in Hr'. apply in_map_iff in Hr' as (r0 & <- & Hr0). apply contour_rows_In in Hr0 as (A & _). split; [reflexivity|exact A]. }
  destruct Ei as [-> ->]. split; [exact Ht|]. exists e. split; [|split; [exact Hr'|]].
  - destruct (F t Ht) as (sel & found & rest & A & B & C).
    assert (I : In e (List.concat found)) by (apply (Permutation_in _ (Permutation_sym C)), in_or_app; left; apply in_map_iff; exists (id, e); split; [reflexivity|exact He]).
    apply in_concat in I as (N & HN & IN). destruct (Forall2_In_r _ _ _ _ B HN) as (l & Hl & Hf). destruct (selects_In _ _ _ _ A Hl) as [L1 L2].
    destruct (found_detection _ _ _ _ _ Hf IN) as (f & s & c & X1 & X2 & X3 & X4 & X5). exists f, l, s, c. auto 9.
  - intros q Hq'. apply (Permutation_in _ (Permutation_sym P)). apply in_flat_map. exists t. split; [exact Ht|]. apply in_flat_map. exists (id, e). split; [exact He|exact Hq'].
Qed.
Print Assumptions C79_every_row_is_a_vertex_of_an_accepted_contour.

(** *** C80 *)
(** One level that is not zero: nothing is lost.  The table has at each step exactly the contour lines that pass the checks. *)
Theorem C80_one_level_loses_nothing : forall o hav t0 tf levels level nt st files R st',
  query_ok hav (t_query o) -> five_fitted o -> process st -> selects (fun x => ~ zero x) levels [level] ->
  tracking o t0 tf (Some levels) nt true st = ((files, Ok R), st') ->
  exists (found : Z -> list eddy) (id : Z -> nat -> Z),
    (forall t, In t (run_steps o t0 tf) -> found_at o t level (found t)) /\
    Permutation (rows R)
      (flat_map (fun t => flat_map (fun ke => rows_at t (id t (fst ke)) (snd ke)) (combine (seq 0 (length (found t))) (found t))) (run_steps o t0 tf)).
Proof.
  intros o hav t0 tf levels level nt st files R st' Hq H5 Hp Hs H. destruct (run_facts _ _ _ _ _ _ _ _ _ _ Hq H5 Hp H) as (_ & _ & f & NS & lab & F & P).
  rewrite (selects_unique _ _ _ _ (nonzero_selects levels) Hs) in F.
  exists (fun t => List.concat (NS t)), (fun t k => lab t (Z.of_nat k)).
  assert (K : forall t, In t (run_steps o t0 tf) -> exists N, NS t = [N] /\ found_at o t level N /\ rows (f t) = table N).
  { intros t Ht. destruct (F t Ht) as [A S]. destruct (NS t) as [|N [|N' l]]; [inversion A| |inversion A as [|? ? ? ? ? B]; inversion B]. exists N. split; [reflexivity|]. split; [inversion A; assumption|].
    cbn [scan map level_loop bind] in S. destruct (empty (level_table N)) eqn:E.
    - cbn [level_loop] in S. injection S as <-. apply empty_true in E. cbn [level_table rows] in E. rewrite E. reflexivity.
    - cbn [empty empty_frame rows level_loop] in S. injection S as <-. reflexivity. }
  split.
  - intros t Ht. destruct (K t Ht) as (N & -> & HN & _). cbn [List.concat]. rewrite app_nil_r. exact HN.
  - rewrite P. apply flat_map_perm. intros t Ht. destruct (K t Ht) as (N & -> & _ & ->). cbn [List.concat]. rewrite app_nil_r. unfold table.
    rewrite map_flat_map. replace (flat_map _ _) with (flat_map (fun ke => rows_at t (lab t (Z.of_nat (fst ke))) (snd ke)) (combine (seq 0 (length N)) N)); [reflexivity|].
    apply flat_map_ext. intro ke. symmetry. apply (rows_relabelled t (lab t)).
Qed.
Print Assumptions C80_one_level_loses_nothing.

(** *** C81 *)
(** Runs of one process do not influence each other, as long as none raises: files and table (or exception) are those of a new process. *)
Theorem C81_runs_are_independent : forall o t0 tf levels nt online st, five_fitted o -> process st ->
  fst (tracking o t0 tf levels nt online st) = fst (tracking o t0 tf levels nt online initial_state).
Proof.
  intros o t0 tf levels nt online st H5 Hp. apply process_settled in Hp.
  destruct (tracking_stateless o H5 t0 tf levels nt online st Hp) as [-> _], (tracking_stateless o H5 t0 tf levels nt online initial_state settled_initial) as [-> _]. reflexivity.
Qed.
Print Assumptions C81_runs_are_independent.

(** *** C82 *)
(** A run depends on the snapshots of its own steps only, and not on uninitialised memory. *)
Lemma lines_data o d mem x y z level : 0 <= m_rows num z -> 0 <= m_cols num z -> lines (on_data o d mem) x y z level = lines o x y z level.
Proof.
  intros R C. unfold lines, on_data. cbn [t_flops t_garbage]. rewrite (C78_result_does_not_depend_on_uninitialised_memory _ _ _ _ _ _ _ _ _ (mem z level) (t_garbage o z level) x y z level R C). reflexivity.
Qed.
Lemma contours_data o d mem f level : contours_at (on_data o d mem) f level = contours_at o f level.
Proof. unfold contours_at. destruct f as [f|]; [|reflexivity]. destruct (_ || _)%bool; [reflexivity|]. apply lines_data; cbn; lia. Qed.
Lemma fitted_data o d mem f level c : surface_arrays o -> fitted (on_data o d mem) f level c = fitted o f level c.
Proof.
  intro H. unfold fitted. cbn [on_data t_surface]. destruct (t_surface o f level c) as [[g [[x y] z]]|e] eqn:E; [|reflexivity]. cbn [bind fst snd].
  destruct (H _ _ _ _ _ _ _ E). rewrite lines_data by assumption. reflexivity.
Qed.
Lemma level_ext fl ro fe ec si da g g' lv cr sk : (forall c, g c = g' c) -> forall cs info disc s,
  level_contours fl ro fe ec si da g lv cr sk cs info disc s = level_contours fl ro fe ec si da g' lv cr sk cs info disc s.
Proof.
  intros H cs. induction cs as [|c cs IH]; intros info disc s; [reflexivity|]. cbn [level_contours].
  replace (examine fl ro fe ec si da g lv cr sk c) with (examine fl ro fe ec si da g' lv cr sk c) by (unfold examine; rewrite H; reflexivity).
  destruct (examine fl ro fe ec si da g' lv cr sk c) as [[| |]|]; try reflexivity; [apply IH| |].
  - destruct (discarded e reason s) as [[t|x] s']; [apply IH|reflexivity].
  - destruct (store e s) as [[t|x] s']; [apply IH|reflexivity].
Qed.
Lemma detect_level_data o d mem f level st : surface_arrays o -> detect_level (on_data o d mem) f level st = detect_level o f level st.
Proof.
  intro H. unfold detect_level. rewrite contours_data. destruct (contours_at o f level) as [cs|]; [|reflexivity]. destruct f as [f|]; [|reflexivity].
  unfold detect_one_level. cbn [on_data t_flops t_rossby t_fit_ellipse t_eccentricity t_similarity t_tree t_X t_Y t_criteria t_skip_gaussian_fit].
  rewrite (level_ext _ _ _ _ _ _ (fitted (on_data o d mem) f level) (fitted o f level)); [reflexivity|]. intro c. apply fitted_data, H.
Qed.
Lemma snapshot_loop_ext query keep f g : (forall l s, f l s = g l s) -> forall ls joint st, snapshot_loop query keep f joint ls st = snapshot_loop query keep g joint ls st.
Proof.
  intros H ls. induction ls as [|l ls IH]; intros joint st; [reflexivity|]. cbn [snapshot_loop]. rewrite H. destruct (g l st) as [[[cur x]|e] st']; [|reflexivity].
  destruct (empty cur); [apply IH|]. destruct (empty joint); [apply IH|]. destruct (bind (detect_nearest query joint cur) _); [apply IH|reflexivity].
Qed.
Lemma loop_data o d mem ls online tf nt ts : surface_arrays o -> (forall t, In t ts -> data2track (on_data o d mem) t = data2track o t) ->
  forall track files st, loop (on_data o d mem) ls online tf nt ts track files st = loop o ls online tf nt ts track files st.
Proof.
  intros H. induction ts as [|t ts IH]; intros Hd track files st; [reflexivity|]. cbn [loop].
  assert (E : snapshot (on_data o d mem) ls t st = snapshot o ls t st).
  { unfold snapshot. destruct ls as [ls|]; [|reflexivity]. rewrite (Hd t (or_introl eq_refl)). destruct (data2track o t) as [f|]; [|reflexivity]. unfold detect_snapshot. apply snapshot_loop_ext. intros. apply detect_level_data, H. }
  rewrite E. assert (IH' := IH (fun s Hs => Hd s (or_intror Hs))). cbn [on_data t_query t_keep t_out_format].
  destruct (snapshot o ls t st) as [[cur|e] st']; [|reflexivity]. destruct (empty cur); [apply IH'|]. destruct (empty track); [apply IH'|]. destruct online.
  - destruct (track_online _ _ _ _ _ _); [|reflexivity]. destruct (print_check tf t); [apply IH'|reflexivity].
  - destruct (store_effect _); [|reflexivity]. cbv zeta. destruct (print_check tf t); [apply IH'|reflexivity].
Qed.
Lemma data2track_same o d mem t : (forall l, t_data o = Series l -> exists l', d = Series l') -> (forall g, t_data o = Single g -> exists g', d = Single g') ->
  (forall g, selected (t_data o) t g <-> selected d t g) -> data2track (on_data o d mem) t = data2track o t.
Proof.
  intros H1 H2 H. unfold data2track. cbn [on_data t_data t_filter]. destruct (t_data o) as [l|g].
  - destruct (H1 l eq_refl) as (l' & ->). f_equal. destruct (select l t) as [g|e] eqn:E.
    + apply select_selected, H, select_selected in E. exact E.
    + destruct (select l' t) as [g|e'] eqn:E'; [apply select_selected, H, select_selected in E'; congruence|]. apply select_err in E, E'. congruence.
  - destruct (H2 g eq_refl) as (g' & ->). cbn in H. assert (g = g') by (apply H; reflexivity). subst. reflexivity.
Qed.
Theorem C82_only_the_steps_analysed_matter : forall o d garbage t0 tf levels nt online st, surface_arrays o ->
  match t_data o, d with
  | Series l, Series l' => (tf = None \/ tf = Some 0 -> length l' = length l)
  | Single _, Single _ => True
  | _, _ => False
  end ->
  (forall t g, In t (run_steps o t0 tf) -> (selected (t_data o) t g <-> selected d t g)) ->
  tracking (on_data o d garbage) t0 tf levels nt online st = tracking o t0 tf levels nt online st.
Proof.
  intros o d mem t0 tf levels nt online st Ha Hk Hd. unfold tracking.
  assert (Et : times (on_data o d mem) t0 tf = times o t0 tf).
  { unfold times. cbn [on_data t_data]. destruct (t_data o) as [l|g], d as [l'|g']; try contradiction; [|reflexivity]. unfold tt_times. f_equal. destruct tf as [n|]; [|rewrite Hk by auto; reflexivity].
    destruct (Z.eqb_spec n 0) as [->|]; [rewrite Hk by auto; reflexivity|reflexivity]. }
  rewrite Et. destruct (times o t0 tf) as [ts|] eqn:E; [|reflexivity]. destruct (times_steps _ _ _ _ E) as [-> _]. apply loop_data; [exact Ha|]. intros t Ht. apply data2track_same.
  - intros l El. rewrite El in Hk. destruct d; [eauto|contradiction].
  - intros g Eg. rewrite Eg in Hk. destruct d; [contradiction|eauto].
  - intro g. apply Hd, Ht.
Qed.
Print Assumptions C82_only_the_steps_analysed_matter.

(** *** a concrete object: fields of 12 by 12 points with spots of value 1, simple stand-ins for the numerical parts.  Every radius is 300 km; the fit of a
    surface raises east of 8 degrees (as scipy's least_squares does when its initial guess is outside the bounds). *)
Definition reduced (x : num) : num := match x with Num a => Num (Qred a) | NaN => NaN end.
Definition rlift2 (f : Q -> Q -> Q) (x y : num) : num := reduced (lift2 f x y).
Definition ex_flops : fops num :=
  mkFops num Num (Num 3) (rlift2 Qplus) (rlift2 Qminus) (rlift2 Qmult) (rlift2 Qdiv) (rlift2 (fun a _ => a))
         (lift1 (fun _ => 0%Q)) (lift1 (fun _ => 1%Q)) (lift1 (fun _ => 300%Q)) (lift1 Qabs) (lift2 (fun _ _ => 0%Q)).
Definition spots (cs : list (Z * Z)) : grid num :=
  tabulate 12 12 (fun i j => if existsb (fun c => (Z.abs (Z.of_nat i - fst c) + Z.abs (Z.of_nat j - snd c) <=? 1)) cs then Num 1 else Num 0).
Definition ex_surface (f : grid num) (level : num) (c : contour) : res (list num * (mat num * mat num * mat num)) :=
  match c with
  | (x, _) :: _ => if ngt x (Num 8) then Err ValueError else Ok ([Num 1; Num 2; Num 3; Num 4; Num 5], (array_of f, array_of f, array_of f))
  | [] => Err ValueError
  end.
Definition ex_tracker (d : list (grid num)) : tracker :=
  mkTracker (Series d) (tabulate 12 12 (fun i j => inject_Z (Z.of_nat j))) (tabulate 12 12 (fun i j => inject_Z (Z.of_nat i)))
    (fun g => Ok (Some g)) ex_flops (fun _ => Num 1000) (fun c => Ok (c, (Num 2, Num 1, Num 0))) (fun _ _ => Num (1#2)) (fun _ _ => Ok (Num (1#2)))
    ex_surface brute_tree demo_query true (fun _ _ _ => blank) (mkCrit (Num (85 # 100)) (Num (9 # 10)) (Num (1 # 10)) (Num 1)) false "csv"%string.
Lemma ex_five d : five_fitted (ex_tracker d).
Proof. intros f level c g s H. cbn [ex_tracker t_surface] in H. unfold ex_surface in H. destruct c as [|[x y] c]; [discriminate|]. destruct (ngt x (Num 8)); [discriminate|]. injection H as <- _. reflexivity. Qed.
Lemma ex_arrays d : surface_arrays (ex_tracker d).
Proof. intros f level c g x y z H. cbn [ex_tracker t_surface] in H. unfold ex_surface in H. destruct c as [|[a b] c]; [discriminate|]. destruct (ngt a (Num 8)); [discriminate|]. injection H as _ _ _ <-. cbn. lia. Qed.
Definition brief (x : outcome) : res (list (Z * Z * Z)) := do R <- snd x; Ok (map (fun r => (r_id r, r_time r, r_idx r)) (rows R)).
Definition eddy_labels (id t : Z) : list (Z * Z * Z) := map (fun k => (id, t, Z.of_nat k)) (seq 0 13).
(** Two steps: one eddy that moves and one that appears.  The object meets the hypotheses of C79-C82, in a new process and after that run. *)
Definition ex_data := [spots [(3, 3)]; spots [(4, 3); (3, 7)]].
Definition ex_run (o : tracker) (st : state) := tracking o 0 (Some 2) (Some [Num 0; Num (1 # 2)]) 5 true st.
Example C79_case : query_ok demo_hav (t_query (ex_tracker ex_data)) /\ five_fitted (ex_tracker ex_data) /\ surface_arrays (ex_tracker ex_data) /\
  selects (fun x => ~ zero x) [Num 0; Num (1 # 2)] [Num (1 # 2)] /\
  brief (fst (ex_run (ex_tracker ex_data) initial_state)) = Ok (eddy_labels 0 0 ++ eddy_labels 0 1 ++ eddy_labels 1 1)%list /\
  (exists R st', ex_run (ex_tracker ex_data) initial_state = (([], Ok R), st') /\ process st').
Proof.
  split; [exact demo_ok|]. split; [apply ex_five|]. split; [apply ex_arrays|]. split; [|split].
  - apply sel_drop; [intro H; apply H; exists 0%Q; split; reflexivity|]. apply sel_keep; [|constructor]. intros (q & H & H0). injection H as <-. discriminate H0.
  - vm_compute. reflexivity.
  - destruct (ex_run (ex_tracker ex_data) initial_state) as [[files [R|e]] st'] eqn:E.
    + exists R, st'. assert (files = []) as ->.
      { pose proof (C79_table_of_a_run (ex_tracker ex_data) demo_hav _ _ _ _ _ _ _ _ demo_ok (ex_five _) started E) as H. apply H. }
      split; [reflexivity|]. eapply (tracked (ex_tracker ex_data)); [apply ex_five|apply started|exact E].
    + exfalso. apply (f_equal (fun x => snd (fst x))) in E. vm_compute in E. discriminate.
Qed.
(** C82: only the first of the snapshots is analysed *)
Example C82_case : tracking (on_data (ex_tracker ex_data) (Series [spots [(3, 3)]; spots []; spots []]) (fun _ _ _ => blank)) 0 (Some 1) (Some [Num (1 # 2)]) 5 true initial_state =
  tracking (ex_tracker ex_data) 0 (Some 1) (Some [Num (1 # 2)]) 5 true initial_state.
Proof.
  apply C82_only_the_steps_analysed_matter; [apply ex_arrays|cbn; intros [H|H]; discriminate|]. intros t g H. cbn in H. destruct H as [<-|[]]. cbn. split; intros [[A B]|[A _]]; try lia; left; auto.
Qed.

(** C83: C81 needs that none of the earlier runs raised: after a run that raised, the next run reports the eddy found before the exception, once more, although the
    data analysed have no such eddy. *)
Theorem C83_a_failed_run_leaks_refuted :
  exists o o' levels st, five_fitted o /\ five_fitted o' /\
    (exists e, tracking o 0 (Some 1) (Some levels) 5 true initial_state = (([], Err e), st)) /\
    brief (fst (tracking o' 0 (Some 1) (Some levels) 5 true initial_state)) = Ok (eddy_labels 0 0) /\
    brief (fst (tracking o' 0 (Some 1) (Some levels) 5 true st)) = Ok (eddy_labels 0 0 ++ eddy_labels 1 0)%list.
Proof.
  exists (ex_tracker [spots [(3, 3); (3, 10)]]), (ex_tracker [spots [(6, 4)]]), [Num (1 # 2)], (snd (tracking (ex_tracker [spots [(3, 3); (3, 10)]]) 0 (Some 1) (Some [Num (1 # 2)]) 5 true initial_state)).
  split; [apply ex_five|]. split; [apply ex_five|]. split; [|split].
  - exists ValueError. destruct (tracking _ _ _ _ _ _ _) as [[files r] st] eqn:E. cbn [snd]. f_equal. apply (f_equal fst) in E. cbn [fst] in E. rewrite <- E. vm_compute. reflexivity.
  - vm_compute. reflexivity.
  - vm_compute. reflexivity.
Qed.
Print Assumptions C83_a_failed_run_leaks_refuted.

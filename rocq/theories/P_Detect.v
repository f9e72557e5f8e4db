(** Property theorems: detection at one level (C18 - C25) and the eddy record (C53). *)
From Coq Require Import Lia.
From Verif Require Import M_Base M_Tables M_Area M_Eddy M_Detect S_Tracking S_Levels S_Detect
  L_Base L_Levels L_Eddy L_Detect L_Detect2 L_Detect3 L_Detect4 L_Witness P_Levels.
Open Scope Z_scope.

(** *** a concrete setting for the examples.  Simple stand-ins for the numerical parts: every area is 0, the limit on the
    radius is the latitude of the centre, the ellipse is the contour itself, and the search for data fails east of 100. *)
Definition lift2 (f : Q -> Q -> Q) (x y : num) : num := match x, y with Num a, Num b => Num (f a b) | _, _ => NaN end.
Definition lift1 (f : Q -> Q) (x : num) : num := match x with Num a => Num (f a) | NaN => NaN end.
Definition demo_flops : fops num :=
  mkFops num Num (Num 3) (lift2 Qplus) (lift2 Qminus) (lift2 Qmult) (lift2 Qdiv) (lift2 (fun a _ => a))
         (lift1 (fun _ => 0%Q)) (lift1 (fun _ => 1%Q)) (lift1 (fun q => q)) (lift1 Qabs) (lift2 (fun _ _ => 0%Q)).
Definition demo_data (c : contour) : res (num * (num * num * num)) :=
  match c with
  | (x, y) :: _ => if ngt x (Num 100) then Err ValueError else Ok (Num 1, (Num 1, y, x))
  | [] => Err IndexError
  end.
Definition demo (skip : bool) : setting :=
  mkSetting demo_flops (fun lat => lat) (fun c => Ok (c, (Num 2, Num 1, Num 0))) (fun _ _ => Num (1 # 2)) (fun _ _ => Ok (Num (1 # 2)))
    demo_data (fun c => Ok ([Num 1; Num 2; Num 3; Num 4; Num 5], [c])) (mkCrit (Num (85 # 100)) (Num (9 # 10)) (Num (1 # 10)) (Num 1)) skip.
Lemma demo_five skip : five_parameters (demo skip).
Proof. intros c g gc H. injection H as <- <-. reflexivity. Qed.
Lemma demo_strict : nan_strict demo_flops.
Proof. repeat split; cbn; try (destruct x; reflexivity). Qed.
Definition V (x y : Z) : num * num := (Num (inject_Z x), Num (inject_Z y)).
Definition sq1 : contour := [V 0 1; V 2 1; V 2 3; V 0 1].          (* accepted *)
Definition sq2 : contour := [V 10 1; V 12 1; V 12 3; V 10 3; V 10 1].
Definition open1 : contour := [V 0 1; V 2 1; V 2 3].               (* not closed *)
Definition south : contour := [V 0 (-9); V 2 (-9); V 2 (-7); V 0 (-9)]. (* too large *)
Definition point : contour := [V 5 5].
Definition east : contour := [V 150 1; V 152 1; V 152 3; V 150 1].  (* raises *)
Definition gap : contour := [V 0 1; (NaN, Num 1); V 2 3; V 0 1].    (* a NaN vertex *)
Ltac proper_demo := split; [apply demo_five|repeat constructor; discriminate].

(** C18: in a fresh process, every contour of the level is judged: ignored when degenerate, kept with its record when it
    passes all the checks, dropped with the first failing check as reason.  The tables returned list exactly the kept eddies
    and the dropped contours, in order.  An exception is that of the first contour with a failing computation. *)
Theorem C18_every_contour_judged :
  forall s level cs, five_parameters s -> Forall (fun c => c <> []) cs ->
  match fst (analyse s level cs initial_state) with
  | Ok (R, D) => exists fs, Forall2 (is_judged s level) cs fs /\ R = level_table (kept fs) /\
                            map noted_reason D = map Some (dropped fs) /\ map fst D = map Z.of_nat (seq 0 (length (dropped fs)))
  | Err e => exists before c after fs, cs = before ++ c :: after /\ Forall2 (is_judged s level) before fs /\ does_raise s c e
  end.
Proof.
  intros s level cs H1 H2. assert (H := run_clean [] initial_state (mkCall s level cs) (Forall_nil _) eq_refl (conj H1 H2)).
  change (run (mkCall s level cs) initial_state) with (analyse s level cs initial_state) in H.
  destruct (analyse s level cs initial_state) as [[[R D]|e] st]; cbn [fst]; [|exact H].
  destruct H as (F & fs & HF & Hf & HR & HD & _). inversion HF; subst. exists fs. split; [exact Hf|]. split; [reflexivity|].
  destruct (dropped fs) eqn:Ed; [subst D; split; reflexivity|]. destruct HD as [A B]. cbn [pending app] in A. split; [exact A|].
  rewrite B. f_equal. f_equal. apply (f_equal (@length _)) in A. rewrite !map_length in A. exact A.
Qed.
Print Assumptions C18_every_contour_judged.
(** The verdict on a contour is unique: at most one of ignored, kept (with one record), dropped (with one reason), exception. *)
Theorem C18_verdict_unique :
  forall s level c,
  (forall f f', is_judged s level c f -> is_judged s level c f' -> f = f') /\
  (forall f e, is_judged s level c f -> does_raise s c e -> False) /\
  (forall e e', does_raise s c e -> does_raise s c e' -> e = e').
Proof.
  intros. split; [intros; eapply judged_unique; eassumption|]. split; [intros; eapply judged_not_raises; eassumption|intros; eapply raises_unique; eassumption].
Qed.
Print Assumptions C18_verdict_unique.
(** A contour becomes an identified eddy exactly when it is accepted (levels that do not raise). *)
Theorem C18_identified_iff_accepted :
  forall s level cs R D st, five_parameters s -> Forall (fun c => c <> []) cs ->
  analyse s level cs initial_state = (Ok (R, D), st) ->
  exists fs, R = level_table (kept fs) /\ length fs = length cs /\
    forall i c f, nth_error cs i = Some c -> nth_error fs i = Some f ->
      ((exists e, f = Kept e) <-> is_accepted s c) /\ (forall r, f = Dropped r <-> is_rejected s c r) /\ (f = Ignored <-> degenerate c).
Proof.
  intros s level cs R D st H5 Hne Hr. assert (H := C18_every_contour_judged s level cs H5 Hne). rewrite Hr in H. cbn [fst] in H.
  destruct H as (fs & HF & HR & _). exists fs. split; [exact HR|]. split; [symmetry; apply (Forall2_length HF)|].
  intros i c f Hc Hf. assert (J : is_judged s level c f).
  { clear - HF Hc Hf. revert i Hc Hf. induction HF as [|c0 f0 cs fs H HF IH]; intros [|i] Hc Hf; cbn in *; try discriminate; [congruence|]. eapply IH; eassumption. }
  destruct f as [|e|r]; cbn in J.
  - split; [split; [intros (e & He); discriminate|intro A; exfalso; apply (proj1 A), J]|]. split; [intro r; split; [discriminate|intro A; exfalso; apply (proj1 A), J]|tauto].
  - split; [split; [intros _; apply J|intros _; eauto]|]. split; [intro r; split; [discriminate|intro A; exfalso; eapply accepted_not_rejected; [apply J|exact A]]|].
    split; [discriminate|intro A; exfalso; apply (proj1 (proj1 J)), A].
  - split; [split; [intros (e & He); discriminate|intro A; exfalso; eapply accepted_not_rejected; [exact A|exact J]]|].
    split; [intro r'; split; [intro E; injection E as <-; exact J|intro A; f_equal; eapply rejected_unique; eassumption]|].
    split; [discriminate|intro A; exfalso; apply (proj1 J), A].
Qed.
Print Assumptions C18_identified_iff_accepted.
Definition summary (x : res (frame * list (Z * dict))) : option (list (Z * Z) * list (option string)) :=
  match x with Ok (R, D) => Some (map (fun r => (r_id r, r_idx r)) (rows R), map noted_reason D) | Err _ => None end.
Example C18_case : five_parameters (demo false) /\ Forall (fun c => c <> []) [point; sq1; south; sq2; gap] /\
  summary (fst (analyse (demo false) (Num 1) [point; sq1; south; sq2; gap] initial_state)) =
    Some ([(0,0);(0,1);(0,2);(0,3);(1,0);(1,1);(1,2);(1,3);(1,4)], [Some "area"; Some "ellipse_area"]%string) /\
  fst (analyse (demo false) (Num 1) [sq1; east; sq2] initial_state) = Err ValueError.
Proof. split; [apply demo_five|]. split; [repeat constructor; discriminate|]. split; vm_compute; reflexivity. Qed.

(** C19 is false: a contour that resembles its ellipse better than the criterion asks is never identified ... *)
Theorem C19_better_than_asked_never_identified :
  forall h st s level cs R D st', Forall proper h -> clean h initial_state st -> five_parameters s -> Forall (fun c => c <> []) cs ->
  analyse s level cs st = (Ok (R, D), st') ->
  forall r, In r (rows R) -> ngt (contour_ellipse_error (r_cols r)) (c_ellipse_fit (s_crit s)) = false.
Proof.
  intros h st s level cs R D st' Hh Hc H5 Hne Hr r Hin. assert (H := run_clean h st (mkCall s level cs) Hh Hc (conj H5 Hne)).
  unfold run in H. cbn [c_setting c_level c_contours] in H. rewrite Hr in H. destruct H as (F & fs & _ & Hf & -> & _).
  apply table_In in Hin. destruct Hin as (e & He & Hcol). destruct (kept_In _ _ _ Hf He) as (c & _ & [Ha Hrec]).
  destruct Hrec as (el & a & b & th & err & sgn & v & y & x & g & gerr & Ef & Es & _ & _ & ->).
  apply in_map_iff in Hcol. destruct Hcol as (p & Hp & _). rewrite <- Hp. cbn [point_columns contour_ellipse_error].
  destruct Ha as [_ Ha]. assert (Hs : similarity_check (s_fit_ellipse s) (s_similarity s) (s_crit s) c = Ok true).
  { apply (Ha ("similarity"%string, _)). right. right. right. left. reflexivity. }
  cbn [c_setting] in *. unfold similarity_check in Hs. rewrite Ef in Hs. cbn [bind fst] in Hs. rewrite Es in Hs. cbn [bind] in Hs. injection Hs as Hs.
  apply negb_true_iff. exact Hs.
Qed.
Print Assumptions C19_better_than_asked_never_identified.
(** ... and an identified eddy may resemble it less than the criterion asks. *)
Theorem C19_resembles_ellipse_refuted :
  exists s level cs R D st, five_parameters s /\ analyse s level cs initial_state = (Ok (R, D), st) /\
  exists r, In r (rows R) /\ nlt (contour_ellipse_error (r_cols r)) (c_ellipse_fit (s_crit s)) = true.
Proof.
  exists (demo false), (Num 1), [sq1]. do 3 eexists. split; [apply demo_five|]. split; [vm_compute; reflexivity|].
  eexists. split; [left; reflexivity|]. vm_compute. reflexivity.
Qed.
Print Assumptions C19_resembles_ellipse_refuted.
Example C19_case : Forall proper [mkCall (demo true) (Num 1) [sq1; south]] /\
  exists st, clean [mkCall (demo true) (Num 1) [sq1; south]] initial_state st /\
  exists R D st', analyse (demo false) (Num 2) [sq2] st = (Ok (R, D), st') /\ length (rows R) = 5%nat.
Proof.
  split; [repeat constructor; [apply demo_five|discriminate..]|]. eexists. split; [cbn; do 2 eexists; split; [vm_compute; reflexivity|reflexivity]|].
  do 3 eexists. split; [vm_compute; reflexivity|reflexivity].
Qed.

(** C20: every contour point of an identified eddy is a number. *)
Theorem C20_no_missing_vertex_in_an_eddy :
  forall h st s level cs R D st', Forall proper h -> clean h initial_state st -> five_parameters s -> Forall (fun c => c <> []) cs ->
  nan_strict (s_flops s) -> analyse s level cs st = (Ok (R, D), st') ->
  forall r, In r (rows R) -> exists x y rest, others (r_cols r) = Num x :: Num y :: rest.
Proof.
  intros h st s level cs R D st' Hh Hc H5 Hne Hs Hr r Hin. assert (H := run_clean h st (mkCall s level cs) Hh Hc (conj H5 Hne)).
  unfold run in H. cbn [c_setting c_level c_contours] in H. rewrite Hr in H. destruct H as (F & fs & _ & Hf & -> & _).
  apply table_In in Hin. destruct Hin as (e & He & Hcol). destruct (kept_In _ _ _ Hf He) as (c & Hcin & [Ha Hrec]).
  cbn [c_setting c_contours] in *.
  destruct Hrec as (el & a & b & th & err & sgn & v & y & x & g & gerr & _ & _ & _ & _ & ->).
  apply in_map_iff in Hcol. destruct Hcol as ([px py] & Hp & Hpin). rewrite <- Hp. cbn [point_columns others fst snd].
  assert (Hnb : ~ bad (px, py)).
  { intro Hb. apply (nan_not_accepted s c Hs); [apply (proj1 (Forall_forall _ _) Hne c Hcin)| |exact Ha]. apply Exists_exists. exists (px, py). auto. }
  destruct px as [|qx]; [exfalso; apply Hnb; left; reflexivity|]. destruct py as [|qy]; [exfalso; apply Hnb; right; reflexivity|].
  exists qx, qy. eexists. reflexivity.
Qed.
Print Assumptions C20_no_missing_vertex_in_an_eddy.
(** The same per contour: one with a missing vertex is not accepted. *)
Theorem C20_missing_vertex_not_accepted :
  forall s c p, nan_strict (s_flops s) -> In p c -> fst p = NaN \/ snd p = NaN -> ~ is_accepted s c.
Proof.
  intros s c p Hs Hp Hb. apply nan_not_accepted; [exact Hs|intros ->; destruct Hp|apply Exists_exists; exists p; auto].
Qed.
Print Assumptions C20_missing_vertex_not_accepted.
Example C20_case : nan_strict (s_flops (demo true)) /\
  summary (fst (analyse (demo true) (Num 1) [gap; sq1] initial_state)) = Some ([(0,0);(0,1);(0,2);(0,3)], [Some "ellipse_area"%string]).
Proof. split; [apply demo_strict|vm_compute; reflexivity]. Qed.

(** C21 is false: whether a contour is closed is never looked at; an open one with good measures is identified. *)
Theorem C21_only_closed_refuted :
  exists s level c R D st, five_parameters s /\ nan_strict (s_flops s) /\ hd (V 0 0) c <> last c (V 0 0) /\
  analyse s level [c] initial_state = (Ok (R, D), st) /\ map r_id (rows R) = [0; 0; 0] /\ D = [].
Proof.
  exists (demo true), (Num 1), open1. do 3 eexists. split; [apply demo_five|]. split; [apply demo_strict|]. split; [discriminate|].
  split; [vm_compute; reflexivity|]. split; reflexivity.
Qed.
Print Assumptions C21_only_closed_refuted.
(** Acceptance is decided by the measures alone: two contours with the same measures (closed or not) get the same verdict. *)
Theorem C21_verdict_from_measures_only :
  forall s c c', ~ degenerate c -> ~ degenerate c' ->
  enclosed_area (s_flops s) c = enclosed_area (s_flops s) c' -> snd (centre c) = snd (centre c') ->
  s_fit_ellipse s c = s_fit_ellipse s c' -> (forall d, s_similarity s c d = s_similarity s c' d) ->
  s_data s c = s_data s c' -> s_gauss_fit s c = s_gauss_fit s c' -> (is_accepted s c <-> is_accepted s c').
Proof.
  intros s c c' Hn Hn' HA HC HF HS HD HG.
  assert (E : checks (enclosed_area (s_flops s)) (disc_radius (s_flops s)) (s_rossby s) (s_fit_ellipse s) (s_eccentricity s) (s_similarity s) (s_data s)
    (s_gauss_fit s) (s_crit s) (s_skip s) c = checks (enclosed_area (s_flops s)) (disc_radius (s_flops s)) (s_rossby s) (s_fit_ellipse s) (s_eccentricity s) (s_similarity s) (s_data s)
    (s_gauss_fit s) (s_crit s) (s_skip s) c').
  { unfold checks, size_check, area_check, eccentricity_check, similarity_check, island_check, gauss_found_check, gauss_check, disc_radius.
    rewrite HA, HC, HF, HD, HG. destruct (s_fit_ellipse s c'); cbn [bind]; rewrite ?HS; [|destruct (s_skip s); [reflexivity|destruct (s_gauss_fit s c'); cbn [bind]; rewrite ?HS; reflexivity]].
    destruct (s_skip s); [reflexivity|]. destruct (s_gauss_fit s c'); cbn [bind]; rewrite ?HS; reflexivity. }
  unfold is_accepted, accepted. rewrite E. tauto.
Qed.
Print Assumptions C21_verdict_from_measures_only.
Lemma demo_not_degenerate_sq1 : ~ degenerate sq1.
Proof. intro H. apply (proj2 (singular_iff sq1 false eq_refl)) in H. discriminate. Qed.
Lemma demo_not_degenerate_open1 : ~ degenerate open1.
Proof. intro H. apply (proj2 (singular_iff open1 false eq_refl)) in H. discriminate. Qed.

(** C22: after any history of calls that did not raise, the identified table of a level is the one a fresh process gives. *)
Theorem C22_identified_only_that_level :
  forall h st s level cs, Forall proper h -> clean h initial_state st -> five_parameters s -> Forall (fun c => c <> []) cs ->
  match fst (analyse s level cs st), fst (analyse s level cs initial_state) with
  | Ok (R, _), Ok (R', _) => R = R'
  | Err e, Err e' => e = e'
  | _, _ => False
  end.
Proof. intros h st s level cs Hh Hc H5 Hne. exact (run_state_independent h st (mkCall s level cs) Hh Hc (conj H5 Hne)). Qed.
Print Assumptions C22_identified_only_that_level.
(** The discarded table is not: it starts with the contours dropped by all the calls since the last one that identified an
    eddy (except that it is [] when this level drops none). *)
Theorem C22_discarded_accumulate :
  forall h st s level cs R D st', Forall proper h -> clean h initial_state st -> five_parameters s -> Forall (fun c => c <> []) cs ->
  analyse s level cs st = (Ok (R, D), st') ->
  exists F fs, Forall2 fates h F /\ Forall2 (is_judged s level) cs fs /\
    match dropped fs with
    | [] => D = []
    | _ => map noted_reason D = map Some (pending [] F ++ dropped fs)
    end.
Proof.
  intros h st s level cs R D st' Hh Hc H5 Hne Hr. assert (H := run_clean h st (mkCall s level cs) Hh Hc (conj H5 Hne)).
  unfold run in H. cbn [c_setting c_level c_contours] in H. rewrite Hr in H. destruct H as (F & fs & HF & Hf & _ & HD & _).
  exists F, fs. split; [exact HF|]. split; [exact Hf|]. destruct (dropped fs); [exact HD|apply HD].
Qed.
Print Assumptions C22_discarded_accumulate.
Theorem C22_discarded_only_that_level_refuted :
  exists s level cs h st, Forall proper h /\ clean h initial_state st /\ five_parameters s /\ Forall (fun c => c <> []) cs /\
  summary (fst (analyse s level cs initial_state)) = Some ([], [Some "area"%string]) /\
  summary (fst (analyse s level cs st)) = Some ([], [Some "ellipse_area"; Some "area"]%string).
Proof.
  exists (demo true), (Num 2), [south], [mkCall (demo true) (Num 1) [gap]]. eexists.
  split; [repeat constructor; [apply demo_five|discriminate]|]. split; [cbn; do 2 eexists; split; [vm_compute; reflexivity|reflexivity]|].
  split; [apply demo_five|]. split; [repeat constructor; discriminate|]. split; vm_compute; reflexivity.
Qed.
Print Assumptions C22_discarded_only_that_level_refuted.

(** C23 is false: eddies identified before the exception stay in the process, and the next level that identifies one
    returns them too, under the first identifiers. *)
Theorem C23_leftovers_after_exception :
  forall k x st1, proper k -> run k initial_state = (Err x, st1) ->
  exists before c after fs, c_contours k = before ++ c :: after /\ Forall2 (is_judged (c_setting k) (c_level k)) before fs /\ does_raise (c_setting k) c x /\
  forall k', proper k' -> forall R D st2, run k' st1 = (Ok (R, D), st2) ->
  exists fs', fates k' fs' /\ (kept fs' <> [] -> R = level_table (kept fs ++ kept fs')) /\ (kept fs' = [] -> R = empty_frame).
Proof.
  intros k x st1 Hk Hr. assert (H := run_spec k initial_state Hk). rewrite Hr in H.
  destruct H as (pre & c & post & fs & D1 & A & B & C & E & F & G). exists pre, c, post, fs. split; [exact A|]. split; [exact B|]. split; [exact F|].
  intros k' Hk' R D st2 Hr'. assert (H' := run_spec k' st1 Hk'). rewrite Hr' in H'. destruct H' as (fs' & D2 & A' & B' & C' & E' & _).
  exists fs'. split; [exact A'|]. split.
  - intro Hn. rewrite E'. replace (set_index (df_store (fst st1) ++ num_rows (calls (fst st1)) (kept fs'))) with (level_table (kept fs ++ kept fs')).
    + destruct (kept fs'); [congruence|reflexivity].
    + subst st1. unfold after. cbn [fst calls df_store initial_state fresh app]. rewrite Z.add_0_l. rewrite <- set_index_fresh by (apply Forall_app; auto).
      cbn [fresh df_store calls app]. rewrite num_rows_app. reflexivity.
  - intro Hn. rewrite E', Hn. reflexivity.
Qed.
Print Assumptions C23_leftovers_after_exception.
Theorem C23_no_trace_refuted :
  exists k k' st1 x, proper k /\ proper k' /\ run k initial_state = (Err x, st1) /\
  summary (fst (run k' initial_state)) = Some ([(0,0);(0,1);(0,2);(0,3);(0,4)], []) /\
  summary (fst (run k' st1)) = Some ([(0,0);(0,1);(0,2);(0,3);(1,0);(1,1);(1,2);(1,3);(1,4)], []).
Proof.
  exists (mkCall (demo true) (Num 1) [sq1; east]), (mkCall (demo true) (Num 1) [sq2]). do 2 eexists.
  split; [proper_demo|]. split; [proper_demo|]. split; [vm_compute; reflexivity|]. split; vm_compute; reflexivity.
Qed.
Print Assumptions C23_no_trace_refuted.

(** C24: after any history of calls that did not raise, the identifiers of a level are 0..n-1 in the order of the accepted
    contours, and the rows of eddy i are the vertices of its contour, numbered from 0. *)
Theorem C24_identifiers_from_zero :
  forall h st s level cs R D st', Forall proper h -> clean h initial_state st -> five_parameters s -> Forall (fun c => c <> []) cs ->
  analyse s level cs st = (Ok (R, D), st') ->
  exists acc : list contour,                         (* the accepted contours, in order *)
    (exists flags, length flags = length cs /\ acc = map snd (filter fst (combine flags cs)) /\
       forall i b c, nth_error flags i = Some b -> nth_error cs i = Some c -> (b = true <-> is_accepted s c)) /\
    ids R = map Z.of_nat (seq 0 (length acc)) /\
    map (fun r => (r_id r, r_idx r)) (rows R) =
      flat_map (fun ic => map (fun i => (Z.of_nat (fst ic), Z.of_nat i)) (seq 0 (length (snd ic)))) (combine (seq 0 (length acc)) acc) /\
    map (fun r => firstn 2 (others (r_cols r))) (rows R) = map (fun p => [fst p; snd p]) (List.concat acc).
Proof.
  intros h st s level cs R D st' Hh Hc H5 Hne Hr. assert (H := run_clean h st (mkCall s level cs) Hh Hc (conj H5 Hne)).
  unfold run in H. cbn [c_setting c_level c_contours] in H. rewrite Hr in H. destruct H as (F & fs & _ & Hf & -> & _ & _). unfold fates in Hf. cbn [c_setting c_level c_contours] in Hf.
  set (flags := map (fun f => match f with Kept _ => true | _ => false end) fs).
  set (acc := map snd (filter fst (combine flags cs))). exists acc.
  assert (Hrec : Forall2 (fun c e => exists pc : num * num -> cols, e = map pc c /\ forall p, firstn 2 (others (pc p)) = [fst p; snd p]) acc (kept fs)).
  { unfold acc, flags. clear - Hf. induction Hf as [|c f cs fs Hf0 Hf IH]; [constructor|]. cbn [map combine filter fst].
    destruct f as [|e|r]; [exact IH| |exact IH]. cbn [map snd]. constructor; [|exact IH].
    destruct Hf0 as [_ (el & a & b & th & err & sgn & v & y & x & g & gerr & _ & _ & _ & _ & ->)]. eexists. split; [reflexivity|]. intro p. reflexivity. }
  assert (Hlen : length acc = length (kept fs)) by exact (Forall2_length Hrec).
  split; [|split; [|split]].
  - exists flags. split; [unfold flags; rewrite map_length; symmetry; apply (Forall2_length Hf)|]. split; [reflexivity|].
    unfold flags. clear - Hf. induction Hf as [|c f cs fs H Hf IH]; intros [|i] b c0 Hb Hc; cbn in Hb, Hc; try discriminate; [|eapply IH; eassumption].
    injection Hb as <-. injection Hc as <-. destruct f as [|e|r]; cbn in H; (split; [intro X; try discriminate X|intro X]).
    + exfalso. apply (proj1 X), H.
    + apply H.
    + reflexivity.
    + exfalso. eapply accepted_not_rejected; eassumption.
  - exact (f_equal (fun n => map Z.of_nat (seq 0 n)) (eq_sym Hlen)).
  - change (rows (level_table (kept fs))) with (table (kept fs)). unfold table. clear - Hrec.
    assert (HG : forall n, map (fun r => (r_id r, r_idx r)) (flat_map (fun ke => contour_rows (Z.of_nat (fst ke)) (snd ke)) (combine (seq n (length (kept fs))) (kept fs))) =
      flat_map (fun ic => map (fun i => (Z.of_nat (fst ic), Z.of_nat i)) (seq 0 (length (snd ic)))) (combine (seq n (length acc)) acc)); [|apply HG].
    induction Hrec as [|c e acc0 E (pc & -> & _) Hrec IH]; intro n; [reflexivity|]. cbn [length seq combine flat_map fst snd].
    rewrite map_app. unfold eddy in IH. rewrite IH. f_equal. unfold contour_rows. rewrite map_length, map_map. cbn [r_id r_idx].
    rewrite combine_map_r, map_map. cbn [fst]. generalize 0%nat as j. induction c as [|p c IHc]; intro j; [reflexivity|]. cbn. f_equal. apply IHc.
  - change (rows (level_table (kept fs))) with (table (kept fs)). unfold table. clear - Hrec.
    assert (HG : forall n, map (fun r => firstn 2 (others (r_cols r))) (flat_map (fun ke => contour_rows (Z.of_nat (fst ke)) (snd ke)) (combine (seq n (length (kept fs))) (kept fs))) =
      map (fun p => [fst p; snd p]) (List.concat acc)); [|apply HG].
    induction Hrec as [|c e acc0 E (pc & -> & Hpc) Hrec IH]; intro n; [reflexivity|]. cbn [length seq combine flat_map fst snd List.concat].
    rewrite !map_app. unfold eddy in IH. rewrite IH. f_equal. unfold contour_rows. rewrite map_length, map_map. cbn [r_cols].
    rewrite combine_map_r, map_map. cbn [snd].
    assert (HJ : forall j, map (fun x : nat * (num * num) => firstn 2 (others (pc (snd x)))) (combine (seq j (length c)) c) = map (fun p => [fst p; snd p]) c); [|apply HJ].
    induction c as [|p c IHc]; intro j; [reflexivity|]. cbn [length seq combine map snd]. f_equal; [exact (Hpc p)|apply IHc].
Qed.
Print Assumptions C24_identifiers_from_zero.
Example C24_case : exists st, clean [mkCall (demo true) (Num 1) [gap; sq2; sq1]] initial_state st /\
  summary (fst (analyse (demo true) (Num 2) [south; sq1; sq2] st)) = Some ([(0,0);(0,1);(0,2);(0,3);(1,0);(1,1);(1,2);(1,3);(1,4)], [Some "area"%string]).
Proof. eexists. split; [cbn; do 2 eexists; split; [vm_compute; reflexivity|reflexivity]|vm_compute; reflexivity]. Qed.

(** C25: the levels analysed in a snapshot are those different from zero, in the order given: unless one of them raises, the
    snapshot is the merging (C14) of the eddies kept at exactly these levels. *)
Theorem C25_nonzero_levels_in_order :
  forall query keep h st s contours_at levels, Forall proper h -> clean h initial_state st ->
  (forall l, proper (mkCall s l (contours_at l))) ->
  exists sel, selects (fun x => ~ zero x) levels sel /\
  ((exists NS, Forall2 (fun l N => exists fs, Forall2 (is_judged s l) (contours_at l) fs /\ N = kept fs) sel NS /\
     fst (detect_snapshot query keep (fun l => analyse s l (contours_at l)) levels st) = scan query keep NS) \/
   (exists l c e e', In l sel /\ In c (contours_at l) /\ does_raise s c e /\
     fst (detect_snapshot query keep (fun l => analyse s l (contours_at l)) levels st) = Err e')).
Proof.
  intros query keep h st s cat levels Hh Hc Hp. exists (nonzero_levels levels). split; [apply nonzero_selects|].
  unfold detect_snapshot. rewrite (snapshot_loop_eq query keep s cat Hp _ h st empty_frame Hh Hc).
  destruct (results s cat Hp (nonzero_levels levels)) as [(NS & A & B)|(l & c & e & A & B & C & E)].
  - left. exists NS. split; [exact A|]. rewrite B. reflexivity.
  - right. destruct (level_loop_err query keep _ e E empty_frame) as (e' & He'). exists l, c, e, e'. auto.
Qed.
Print Assumptions C25_nonzero_levels_in_order.
Theorem C25_selection_unique : forall levels l1 l2,
  selects (fun x => ~ zero x) levels l1 -> selects (fun x => ~ zero x) levels l2 -> l1 = l2.
Proof. intros. eapply selects_unique; eassumption. Qed.
Print Assumptions C25_selection_unique.
Definition demo_contours (l : num) : list contour := if neqb l (Num 1) then [sq1; south] else [sq2].
Example C25_case : (forall l, proper (mkCall (demo true) l (demo_contours l))) /\
  exists R, fst (detect_snapshot demo_query true (fun l => analyse (demo true) l (demo_contours l)) [Num 0; Num 1; Num 2; Num 0] initial_state) = Ok R /\
  map (fun r => (r_id r, r_idx r)) (rows R) = [(0,0);(0,1);(0,2);(0,3);(1,0);(1,1);(1,2);(1,3);(1,4)].
Proof.
  split.
  - intro l. split; [apply demo_five|]. unfold c_contours, demo_contours. destruct (neqb l (Num 1)); repeat constructor; discriminate.
  - eexists. split; [vm_compute; reflexivity|reflexivity].
Qed.

(** C53: the record of an eddy that reached [store]: the same columns in the same order for every contour and every value.
    ([record] lists names and values; with skip_gaussian_fit the five Gaussian columns are replaced by one.) *)
Theorem C53_record_columns :
  forall s level c e id, five_parameters s -> c <> [] ->
  examine (s_flops s) (s_rossby s) (s_fit_ellipse s) (s_eccentricity s) (s_similarity s) (s_data s) (s_gauss_fit s) level (s_crit s) (s_skip s) c = Ok (Store e) ->
  exists d el a b th err sgn v y x g gerr,
    to_dict (attrs e (scalar (VNum (Num (inject_Z id))))) default_properties = Ok d /\
    s_fit_ellipse s c = Ok (el, (a, b, th)) /\ s_similarity s c el = Ok err /\ s_data s c = Ok (sgn, (v, y, x)) /\
    (if s_skip s then g = no_gauss_dict /\ gerr = Num 0
     else exists l gc, s_gauss_fit s c = Ok (l, gc) /\ s_similarity s c (List.concat gc) = Ok gerr /\ g = gauss_dict l) /\
    d = final_dict id c level (enclosed_area (s_flops s) c) (disc_radius (s_flops s) c) a b th err (s_eccentricity s a b)
          (fst (centre c)) (snd (centre c)) sgn v y x g gerr /\
    map fst d = record_columns (s_skip s) /\ NoDup (map fst d).
Proof.
  intros s level c e id H5 Hc He.
  assert (H := examine_spec (s_flops s) (s_rossby s) (s_fit_ellipse s) (s_eccentricity s) (s_similarity s) (s_data s) (s_gauss_fit s) level (s_crit s) (s_skip s) c Hc).
  rewrite He in H. destruct H as [[Hnd _] (el & a & b & th & err & sgn & v & y & x & gp & g & gerr & A & B & C & G & ->)].
  assert (Hlen : (2 <= length c)%nat) by (destruct c as [|p [|q c]]; [congruence|exfalso; apply Hnd, single_degenerate|cbn; lia]).
  set (gd := if s_skip s then no_gauss_dict else gauss_dict g).
  eexists. exists el, a, b, th, err, sgn, v, y, x, gd, gerr.
  split. { apply final_to_dict with (g := gd); [exact Hlen|]. unfold gd. destruct (s_skip s); [left; split; [apply G|reflexivity]|right].
    destruct G as (-> & gc & G1 & G2). exists g. split; [apply (H5 _ _ _ G1)|split; reflexivity]. }
  split; [exact A|]. split; [exact B|]. split; [exact C|].
  assert (Hg : if s_skip s then True else length g = 5%nat) by (destruct (s_skip s); [exact I|]; destruct G as (_ & gc & G1 & _); apply (H5 _ _ _ G1)).
  split. { unfold gd. destruct (s_skip s); [split; [reflexivity|apply G]|]. destruct G as (-> & gc & G1 & G2). exists g, gc. auto. }
  split; [reflexivity|]. unfold gd, record_columns. destruct (s_skip s).
  - split; [reflexivity|]. cbn. repeat (constructor; [cbn; intuition discriminate|]). constructor.
  - destruct g as [|g1 [|g2 [|g3 [|g4 [|g5 [|]]]]]]; try discriminate Hg. split; [reflexivity|]. cbn. repeat (constructor; [cbn; intuition discriminate|]). constructor.
Qed.
Print Assumptions C53_record_columns.
Example C53_case : exists e, examine (s_flops (demo false)) (s_rossby (demo false)) (s_fit_ellipse (demo false)) (s_eccentricity (demo false)) (s_similarity (demo false))
  (s_data (demo false)) (s_gauss_fit (demo false)) (Num 1) (s_crit (demo false)) false sq1 = Ok (Store e).
Proof. eexists. vm_compute. reflexivity. Qed.
(** But a property of unexpected shape need not raise: an n x 2 array in any place replaces the contour in the record. *)
Theorem C53_unexpected_shape_raises_refuted :
  forall e extra c m, (2 <= length c)%nat -> (2 <= length m)%nat ->
  a_contour e = mkArr [length c; 2%nat] (flatten c) -> a_level e = mkArr [length m; 2%nat] (flatten m) ->
  exists d, to_dict (attrs e (scalar extra)) ["identifier"; "contour"; "level"]%string = Ok d /\
    map fst d = ["identifier"; "contour_path_x"; "contour_path_y"]%string /\
    dget "contour_path_x" d = Some (CVec (map (fun p => VNum (fst p)) m)) /\
    dget "contour_path_y" d = Some (CVec (map (fun p => VNum (snd p)) m)).
Proof.
  intros e extra c m Hc Hm E1 E2. unfold to_dict. rewrite !to_dict_step. cbn [fold_left].
  change (attrs e (scalar extra) "identifier"%string) with (scalar extra).
  change (attrs e (scalar extra) "contour"%string) with (a_contour e). change (attrs e (scalar extra) "level"%string) with (a_level e).
  rewrite E1, E2. change (put_property "identifier" (scalar extra) []) with (Ok [("identifier"%string, CScalar extra)]). cbn [bind].
  rewrite put_contour by exact Hc. cbn [bind]. rewrite put_any by exact Hm. eexists. split; [reflexivity|]. repeat split; reflexivity.
Qed.
Print Assumptions C53_unexpected_shape_raises_refuted.
Example C53_shape_case : (2 <= length sq1)%nat /\ (2 <= length sq2)%nat /\ map fst sq1 <> map fst sq2.
Proof. split; [cbn; lia|]. split; [cbn; lia|discriminate]. Qed.

(** Property C110: what the figures show, and for which results they can be drawn. *)
From Coq Require Import Lia.
From Verif Require Import M_Base M_Tables M_Area M_Eddy M_Detect M_Plot M_Figures S_Tracking S_Levels S_Detect
  L_Base L_Levels L_Eddy L_Detect L_Detect2 L_Detect3 L_Detect4 P_Detect P_Plot.
Open Scope list_scope.
Open Scope Z_scope.

(** *** lemmas *)
Lemma traverse_ok {A B} (f : A -> res B) (g : A -> B) l : (forall x, In x l -> f x = Ok (g x)) -> traverse f l = Ok (map g l).
Proof.
  induction l as [|x l IH]; intro H; [reflexivity|]. cbn [traverse map]. rewrite (H x (or_introl eq_refl)). cbn [bind].
  rewrite IH by (intros y Hy; apply H; right; exact Hy). reflexivity.
Qed.
Lemma traverse_forall2 {A B} (f : A -> res B) l ys : traverse f l = Ok ys -> Forall2 (fun x y => f x = Ok y) l ys.
Proof.
  revert ys. induction l as [|x l IH]; intros ys H; cbn [traverse] in H; [injection H as <-; constructor|].
  destruct (f x) as [y|e] eqn:E; cbn [bind] in H; [|discriminate H]. destruct (traverse f l) as [zs|e]; cbn [bind] in H; [|discriminate H].
  injection H as <-. constructor; [exact E|]. apply IH. reflexivity.
Qed.

(** rows of one eddy of a table *)
Lemma contour_rows_id k e r : In r (contour_rows k e) -> r_id r = k.
Proof. unfold contour_rows. intro H. apply in_map_iff in H. destruct H as (x & <- & _). reflexivity. Qed.
Lemma filter_all {A} (p : A -> bool) l : (forall x, In x l -> p x = true) -> filter p l = l.
Proof. induction l as [|a l IH]; intro H; [reflexivity|]. cbn. rewrite (H a) by (left; reflexivity). f_equal. apply IH. intros x Hx. apply H. right. exact Hx. Qed.
Lemma filter_none {A} (p : A -> bool) l : (forall x, In x l -> p x = false) -> filter p l = [].
Proof. induction l as [|a l IH]; intro H; [reflexivity|]. cbn. rewrite (H a) by (left; reflexivity). apply IH. intros x Hx. apply H. right. exact Hx. Qed.
Lemma table_group E : forall n k e, nth_error E k = Some e ->
  filter (fun r => r_id r =? Z.of_nat (n + k)) (flat_map (fun ke => contour_rows (Z.of_nat (fst ke)) (snd ke)) (combine (seq n (length E)) E)) = contour_rows (Z.of_nat (n + k)) e.
Proof.
  induction E as [|x E IH]; intros n k e H; [destruct k; discriminate H|]. cbn [length seq combine flat_map fst snd]. rewrite filter_app.
  destruct k as [|k]; cbn [nth_error] in H.
  - injection H as ->. rewrite Nat.add_0_r. rewrite (filter_all _ (contour_rows _ _)) by (intros r Hr; apply Z.eqb_eq, (contour_rows_id _ _ _ Hr)).
    rewrite (filter_none _ (flat_map _ _)); [apply app_nil_r|]. intros r Hr. apply in_flat_map in Hr. destruct Hr as ([i y] & Hi & Hr).
    apply contour_rows_id in Hr. apply in_combine_l in Hi. apply in_seq in Hi. cbn [fst] in *. apply Z.eqb_neq. lia.
  - rewrite (filter_none _ (contour_rows _ _)) by (intros r Hr; apply Z.eqb_neq; rewrite (contour_rows_id _ _ _ Hr); lia).
    cbn [app]. replace (n + S k)%nat with (S n + k)%nat by lia. apply IH. exact H.
Qed.
Lemma contour_rows_nil k e : contour_rows k e = [] -> e = [].
Proof. unfold contour_rows. destruct e; [reflexivity|discriminate]. Qed.
Lemma loc_table E k e l : nth_error E k = Some e -> e <> [] -> loc (Z.of_nat k) (mkFrame (table E) l) = Ok (contour_rows (Z.of_nat k) e).
Proof.
  intros H N. unfold loc, table. cbn [rows]. assert (G := table_group E 0 k e H). cbn [plus] in G. rewrite G.
  destruct (contour_rows (Z.of_nat k) e) eqn:C; [|reflexivity]. apply contour_rows_nil in C. contradiction.
Qed.
Lemma map_contour_rows {B} (g : cols -> B) k e : map (fun r => g (r_cols r)) (contour_rows k e) = map g e.
Proof.
  unfold contour_rows. rewrite map_map. cbn [r_cols]. generalize 0%nat. induction e as [|c e IH]; intro n; [reflexivity|]. cbn. f_equal. apply IH.
Qed.

(** *** the discarded rows: position and reason *)
Definition marks (m : contour * string) (kd : Z * dict) : Prop :=
  dget "contour_x" (snd kd) = Some (CScalar (VNum (fst (centre (fst m))))) /\
  dget "contour_y" (snd kd) = Some (CScalar (VNum (snd (centre (fst m))))) /\
  dget "reason" (snd kd) = Some (CScalar (VStr (snd m))).
Definition dropped_contours (cs : list contour) (fs : list fate) : list (contour * string) :=
  flat_map (fun cf => match snd cf with Dropped r => [(fst cf, r)] | _ => [] end) (combine cs fs).

Section Rows.
Variable s : setting.
Variable level : num.
Notation exam := (examine (s_flops s) (s_rossby s) (s_fit_ellipse s) (s_eccentricity s) (s_similarity s) (s_data s) (s_gauss_fit s) level (s_crit s) (s_skip s)).
Notation loop := (level_contours (s_flops s) (s_rossby s) (s_fit_ellipse s) (s_eccentricity s) (s_similarity s) (s_data s) (s_gauss_fit s) level (s_crit s) (s_skip s)).

Lemma exam_center c r e : exam c = Ok (Discard r e) -> a_center e = vector [fst (centre c); snd (centre c)].
Proof.
  unfold examine. rewrite center_of_centre. intro H.
  repeat match type of H with
  | bind ?X _ = _ => destruct X as [?|?]; cbn [bind] in H; [|discriminate H]
  | (if ?b then _ else _) = _ => destruct b
  | Ok (Discard _ _) = Ok (Discard _ _) => injection H as <- <-
  | Ok _ = Ok (Discard _ _) => discriminate H
  | (match ?p with pair _ _ => _ end) = _ => destruct p
  | (match ?l with nil => _ | cons _ _ => _ end) = _ => destruct l
  | bind ?X _ = _ => fail 1
  end.
  all: repeat match goal with p : (num * num * num)%type |- _ => destruct p as [[? ?] ?] end.
  all: change (vector [fst (center_of c); snd (center_of c)] = vector [fst (centre c); snd (centre c)]); rewrite center_of_centre; reflexivity.
Qed.

Lemma discard_marks c r e id : exam c = Ok (Discard r e) -> c <> [] -> exists d, discard_row e r id = Ok [(id, d)] /\ marks (c, r) (id, d).
Proof.
  intros H Hc. assert (C := exam_center c r e H).
  assert (S := examine_spec (s_flops s) (s_rossby s) (s_fit_ellipse s) (s_eccentricity s) (s_similarity s) (s_data s) (s_gauss_fit s) level (s_crit s) (s_skip s) c Hc).
  rewrite H in S. destruct S as [_ (l & a & rd & err & cx & cy & ecc & sg & gerr & m & H1 & H2 & H3 & H4 & H5 & H6 & H7 & H8 & H9)].
  rewrite C in H5. unfold marks. cbn [fst snd]. revert C. generalize (fst (centre c)) (snd (centre c)). intros X Y C.
  unfold discard_row, to_dict, discarded_properties. cbn [fold_left bind attrs String.eqb Ascii.eqb Bool.eqb].
  destruct e; cbn in *. subst. destruct H9 as [->|(v & y & x & ->)]; (eexists; split; [reflexivity|repeat split; reflexivity]).
Qed.

(** what the loop adds to the collected discarded rows *)
Lemma loop_marks cs : Forall (fun c => c <> []) cs -> forall info disc st info' disc' st' fs, loop cs info disc st = (Ok (info', disc'), st') ->
  Forall2 (is_judged s level) cs fs -> exists D1, df_store (snd st') = df_store (snd st) ++ D1 /\ Forall2 marks (dropped_contours cs fs) D1.
Proof.
  induction cs as [|c cs IH]; intros Hne info disc st info' disc' st' fs H F.
  - inversion F; subst. cbn in H. injection H as <- <- <-. exists []. rewrite app_nil_r. split; [reflexivity|constructor].
  - inversion Hne as [|? ? Hc Hcs]; subst. inversion F as [|? f ? fs0 Hf F0]; subst. cbn [level_contours] in H.
    assert (He := examine_spec (s_flops s) (s_rossby s) (s_fit_ellipse s) (s_eccentricity s) (s_similarity s) (s_data s) (s_gauss_fit s) level (s_crit s) (s_skip s) c Hc).
    destruct (exam c) as [[|r e|e]|x] eqn:Ex; [| | |discriminate H].
    + assert (f = Ignored) as -> by (apply (judged_unique s level c); [exact Hf|exact He]).
      exact (IH Hcs _ _ _ _ _ _ _ H F0).
    + destruct He as [Hr _]. assert (f = Dropped r) as -> by (apply (judged_unique s level c); [exact Hf|exact Hr]).
      destruct (discard_marks c r e (calls (snd st)) Ex Hc) as (d & Hd & Hm). unfold discarded in H. rewrite (collect_ok _ _ _ Hd) in H.
      destruct (IH Hcs _ _ _ _ _ _ _ H F0) as (D1 & E & G). cbn [snd fst df_store] in E. exists ((calls (snd st), d) :: D1).
      split; [rewrite E, <- app_assoc; reflexivity|]. constructor; assumption.
    + destruct f as [|ed|r]; cbn in Hf.
      * exfalso. apply (proj1 (proj1 He)). exact Hf.
      * destruct (store e st) as [[t|x] st1] eqn:Es; [|discriminate H]. destruct (IH Hcs _ _ _ _ _ _ _ H F0) as (D1 & E & G). exists D1.
        split; [|exact G]. rewrite E. f_equal. unfold store in Es. destruct (collect (store_rows e) (fst st)) as [r0 c0]. injection Es as _ <-. reflexivity.
      * exfalso. eapply accepted_not_rejected; [exact (proj1 He)|exact Hf].
Qed.
End Rows.

(** The discarded table of a call, given the rows left by the earlier ones. *)
Lemma run_marks k st R D st' fs : proper k -> run k st = (Ok (R, D), st') -> fates k fs ->
  exists D1, Forall2 marks (dropped_contours (c_contours k) fs) D1 /\ D = (if dropped fs then [] else df_store (snd st) ++ D1) /\
    df_store (snd st') = (if kept fs then df_store (snd st) ++ D1 else []).
Proof.
  destruct k as [s l cs]. intros Hp Hr Hf. assert (S := run_spec (mkCall s l cs) st Hp). rewrite Hr in S.
  destruct S as (fs' & D1' & Hf' & Hn & Hne & ER & ED & Est). assert (fs' = fs) as -> by exact (fates_unique _ _ _ Hf' Hf).
  destruct Hp as [H5 Hcs]. cbn [c_contours c_setting c_level] in *. unfold run, analyse, detect_one_level in Hr. cbn [c_contours c_setting c_level] in Hr.
  destruct (level_contours (s_flops s) (s_rossby s) (s_fit_ellipse s) (s_eccentricity s) (s_similarity s) (s_data s) (s_gauss_fit s) l (s_crit s) (s_skip s) cs None None st)
    as [[[info disc]|x] st1] eqn:El; [|destruct (snd st); discriminate Hr].
  destruct (loop_marks s l cs Hcs _ _ _ _ _ _ _ El Hf) as (D1 & E1 & M).
  assert (LS := level_loop_spec (s_flops s) (s_rossby s) (s_fit_ellipse s) (s_eccentricity s) (s_similarity s) (s_data s) (s_gauss_fit s) l (s_crit s) (s_skip s) H5 cs Hcs None None st).
  rewrite El in LS. destruct LS as (fs2 & D2 & J2 & N2 & K2 & S2 & I2 & C2). assert (fs2 = fs) as -> by exact (fates_unique (mkCall s l cs) _ _ J2 Hf).
  exists D1. split; [exact M|]. destruct info as [t|].
  - injection Hr as <- <- <-. split.
    + rewrite C2. destruct (dropped fs); [reflexivity|exact E1].
    + destruct (kept fs); [discriminate I2|reflexivity].
  - injection Hr as <- <- <-. split.
    + rewrite C2. destruct (dropped fs); [reflexivity|exact E1].
    + destruct (kept fs); [exact E1|discriminate I2].
Qed.

(** *** specification *)
(** The contours of a level that were kept, and those dropped with the reason, in order. *)
Definition kept_contours (cs : list contour) (fs : list fate) : list contour :=
  flat_map (fun cf => match snd cf with Kept _ => [fst cf] | _ => [] end) (combine cs fs).
(** The contours dropped since the last call that identified an eddy. *)
Fixpoint waiting (acc : list (contour * string)) (h : list call) (F : list (list fate)) : list (contour * string) :=
  match h, F with
  | k :: h', fs :: F' => waiting (match kept fs with [] => acc ++ dropped_contours (c_contours k) fs | _ => [] end) h' F'
  | _, _ => acc
  end.

Lemma waiting_rows h : Forall proper h -> forall st st' F acc, Forall2 marks acc (df_store (snd st)) -> clean h st st' -> Forall2 fates h F ->
  Forall2 marks (waiting acc h F) (df_store (snd st')).
Proof.
  induction 1 as [|k h Hk Hh IH]; intros st st' F acc HA Hc HF.
  - inversion HF; subst. cbn in Hc. subst st'. exact HA.
  - inversion HF as [|? fs ? F' Hfs HF']; subst. destruct Hc as ([R D] & st1 & Hr & Hc). destruct (run_marks k st R D st1 fs Hk Hr Hfs) as (D1 & M & _ & E).
    cbn [waiting]. apply (IH st1 st' F'); [|exact Hc|exact HF']. rewrite E. destruct (kept fs); [apply Forall2_app; assumption|constructor].
Qed.
Lemma dropped_of cs fs : length cs = length fs -> map snd (dropped_contours cs fs) = dropped fs.
Proof.
  revert cs. induction fs as [|f fs IH]; intros [|c cs] H; try discriminate H; [reflexivity|]. unfold dropped_contours, dropped. cbn [combine flat_map fst snd].
  rewrite map_app. fold (dropped_contours cs fs). fold (dropped fs). rewrite IH by (injection H; trivial). destruct f; reflexivity.
Qed.
Lemma kept_paths s level cs fs : Forall2 (is_judged s level) cs fs ->
  map (fun e => (map (fun c => (nth 0 (others c) NaN, nth 1 (others c) NaN)) e, map (fun c => (nth 8 (others c) NaN, nth 9 (others c) NaN)) e)) (kept fs) =
  map (fun c => (c, map (fun _ => centre c) c)) (kept_contours cs fs).
Proof.
  induction 1 as [|c f cs fs H F IH]; [reflexivity|]. unfold kept, kept_contours. cbn [combine flat_map fst snd]. fold (kept fs). fold (kept_contours cs fs).
  rewrite !map_app. apply f_equal2; [|exact IH]. destruct f as [|e|r]; try reflexivity. destruct H as [_ H]. unfold recorded in H.
  destruct H as (el & a & b & th & err & sgn & v & y & x & g & gerr & _ & _ & _ & _ & ->). cbn [map].
  rewrite !map_map. cbn [others point_columns nth app]. apply f_equal2; [|reflexivity]. apply f_equal2.
  - rewrite <- (map_id c) at 2. apply map_ext. intros [p q]. reflexivity.
  - apply map_ext. intro p. destruct (centre c). reflexivity.
Qed.

Lemma labels_unique (D : list (Z * dict)) : NoDup (map fst D) -> forall e, In e D -> filter (fun x => fst x =? fst e) D = [e].
Proof.
  induction D as [|a D IH]; intros N e H; [destruct H|]. cbn [map] in N. inversion N as [|? ? N1 N2]; subst. cbn [filter]. destruct H as [->|H].
  - rewrite Z.eqb_refl. f_equal. apply filter_none. intros x Hx. apply Z.eqb_neq. intro Q. apply N1. rewrite <- Q. apply in_map. exact Hx.
  - assert (fst a =? fst e = false) as ->; [|apply IH; assumption]. apply Z.eqb_neq. intro Q. apply N1. rewrite Q. apply in_map. exact H.
Qed.
Lemma right_ok L D : D <> [] -> NoDup (map fst D) -> Forall2 marks L D ->
  right_panel D = Ok (map (fun m => (fst (centre (fst m)), snd (centre (fst m)), marker_colour (snd m))) L).
Proof.
  intros HD N F. unfold right_panel. destruct D as [|d D]; [congruence|]. set (W := d :: D) in *. clearbody W. clear HD.
  assert (G : forall L0 D0, Forall2 marks L0 D0 -> (forall e, In e D0 -> In e W) -> traverse (fun kd => match filter (fun e => fst e =? fst kd) W with
    | [(_, d)] => match dget "contour_x" d, dget "contour_y" d, dget "reason" d with
                      | Some (CScalar (VNum x)), Some (CScalar (VNum y)), Some (CScalar (VStr r)) => Ok (x, y, marker_colour r)
                      | _, _, _ => Err KeyError
                      end
    | _ => Err ValueError end) D0 = Ok (map (fun m => (fst (centre (fst m)), snd (centre (fst m)), marker_colour (snd m))) L0)).
  { induction 1 as [|m [k0 d0] L0 D0 (A & B & C) F0 IH]; intro I; [reflexivity|]. cbn [traverse map]. rewrite (labels_unique W N (k0, d0)) by (apply I; left; reflexivity).
    cbn [snd] in A, B, C. rewrite A, B, C. cbn [bind]. rewrite IH by (intros e He; apply I; right; exact He). reflexivity. }
  apply (G L W F). auto.
Qed.

(** *** C110 *)
(** After any history of calls of one process that did not raise: the figure of a level shows on the left the contours kept at this level, each along its vertices with its centre,
    and on the right one point for each contour dropped at this level or waiting from earlier levels (C22), at its centre, in the colour of its reason;
    it can be drawn exactly if this level kept a contour and dropped one. *)
Theorem C110_figure_of_a_level_partial :
  forall h st s level cs R D st', Forall proper h -> clean h initial_state st -> five_parameters s -> Forall (fun c => c <> []) cs ->
  analyse s level cs st = (Ok (R, D), st') ->
  exists F fs, Forall2 fates h F /\ Forall2 (is_judged s level) cs fs /\
    ((exists c, In c cs /\ is_accepted s c) -> (exists c reason, In c cs /\ is_rejected s c reason) ->
       plot_in_level R D = Ok (map (fun c => (c, map (fun _ => centre c) c)) (kept_contours cs fs),
                               map (fun m => (fst (centre (fst m)), snd (centre (fst m)), marker_colour (snd m))) (waiting [] h F ++ dropped_contours cs fs))) /\
    ((forall c, In c cs -> ~ is_accepted s c) -> plot_in_level R D = Err AttributeError) /\
    ((exists c, In c cs /\ is_accepted s c) -> (forall c reason, In c cs -> ~ is_rejected s c reason) -> plot_in_level R D = Err TypeError).
Proof.
  intros h st s level cs R D st' Hh Hc H5 Hne Hr. assert (P : proper (mkCall s level cs)) by (split; assumption).
  assert (H := run_clean h st (mkCall s level cs) Hh Hc P). unfold run in H. cbn [c_setting c_level c_contours] in H. rewrite Hr in H.
  destruct H as (F & fs & HF & Hf & -> & HD & _). exists F, fs. split; [exact HF|]. split; [exact Hf|].
  destruct (run_marks (mkCall s level cs) st _ _ _ fs P Hr Hf) as (D1 & M & ED & _). cbn [c_contours] in M.
  assert (W := waiting_rows h Hh initial_state st F [] (Forall2_nil _) Hc HF).
  assert (KA : (exists c, In c cs /\ is_accepted s c) -> kept fs <> []).
  { intros (c & Hin & Ha). clear - Hf Hin Ha. unfold fates in Hf. cbn [c_setting c_level c_contours] in Hf. induction Hf as [|c0 f cs fs J Hf IH]; [destruct Hin|].
    destruct Hin as [->|Hin]; [|unfold kept; cbn [flat_map]; fold (kept fs); intro X; apply app_eq_nil in X; exact (IH Hin (proj2 X))].
    destruct f as [|e|r]; cbn in J; [exfalso; exact (proj1 Ha J)|discriminate|exfalso; eapply accepted_not_rejected; eassumption]. }
  assert (KN : (forall c, In c cs -> ~ is_accepted s c) -> kept fs = []).
  { clear - Hf. unfold fates in Hf. cbn [c_setting c_level c_contours] in Hf. induction Hf as [|c0 f cs fs J Hf IH]; intro X; [reflexivity|].
    unfold kept; cbn [flat_map]; fold (kept fs). rewrite IH by (intros c Hin; apply X; right; exact Hin). destruct f as [|e|r]; try reflexivity.
    exfalso. exact (X c0 (or_introl eq_refl) (proj1 J)). }
  assert (DA : (exists c reason, In c cs /\ is_rejected s c reason) -> dropped fs <> []).
  { intros (c & r & Hin & Ha). clear - Hf Hin Ha. unfold fates in Hf. cbn [c_setting c_level c_contours] in Hf. induction Hf as [|c0 f cs fs J Hf IH]; [destruct Hin|].
    destruct Hin as [->|Hin]; [|unfold dropped; cbn [flat_map]; fold (dropped fs); intro X; apply app_eq_nil in X; exact (IH Hin (proj2 X))].
    destruct f as [|e|r']; cbn in J; [exfalso; exact (proj1 Ha J)|exfalso; eapply accepted_not_rejected; [exact (proj1 J)|exact Ha]|discriminate]. }
  assert (DN : (forall c reason, In c cs -> ~ is_rejected s c reason) -> dropped fs = []).
  { clear - Hf. unfold fates in Hf. cbn [c_setting c_level c_contours] in Hf. induction Hf as [|c0 f cs fs J Hf IH]; intro X; [reflexivity|].
    unfold dropped; cbn [flat_map]; fold (dropped fs). rewrite IH by (intros c r Hin; apply X; right; exact Hin). destruct f as [|e|r]; try reflexivity.
    exfalso. exact (X c0 r (or_introl eq_refl) J). }
  assert (NE : Forall (fun e : eddy => e <> []) (kept fs)).
  { assert (S := run_spec (mkCall s level cs) st P). unfold run in S. cbn [c_setting c_level c_contours] in S. rewrite Hr in S.
    destruct S as (fs' & _ & Hf' & _ & X & _). assert (fs' = fs) as -> by exact (fates_unique (mkCall s level cs) _ _ Hf' Hf). exact X. }
  assert (LP : kept fs <> [] -> left_panel (level_table (kept fs)) = Ok (map (fun c => (c, map (fun _ => centre c) c)) (kept_contours cs fs))).
  { intro K. unfold left_panel, index_levels.
    assert (empty (level_table (kept fs)) = false) as ->.
    { unfold empty, level_table, table. cbn [rows]. destruct (kept fs) as [|e E]; [congruence|]. inversion NE; subst. cbn [length seq combine flat_map fst snd].
      destruct (contour_rows (Z.of_nat 0) e) eqn:C; [apply contour_rows_nil in C; contradiction|reflexivity]. }
    cbn [bind]. unfold level_table at 2. cbn [ids].
    rewrite <- (kept_paths s level cs fs Hf).
    set (g := fun e : eddy => (map (fun c => (nth 0 (others c) NaN, nth 1 (others c) NaN)) e, map (fun c => (nth 8 (others c) NaN, nth 9 (others c) NaN)) e)).
    rewrite (traverse_ok _ (fun k => g (nth (Z.to_nat k) (kept fs) []))).
    - f_equal. rewrite map_map. apply (nth_ext _ _ (g []) (g [])); [rewrite !map_length, seq_length; reflexivity|]. intros n Hn. rewrite map_length, seq_length in Hn.
      rewrite (map_nth g). rewrite (nth_indep _ (g []) (g (nth (Z.to_nat (Z.of_nat 0)) (kept fs) []))) by (rewrite map_length, seq_length; exact Hn).
      rewrite (map_nth (fun x => g (nth (Z.to_nat (Z.of_nat x)) (kept fs) []))). rewrite seq_nth by exact Hn. rewrite Nat2Z.id. reflexivity.
    - intros k Hk. apply in_map_iff in Hk. destruct Hk as (n & <- & Hn). apply in_seq in Hn. rewrite Nat2Z.id.
      destruct (nth_error (kept fs) n) as [e|] eqn:En; [|apply nth_error_None in En; lia]. rewrite (nth_error_nth _ _ _ En).
      unfold level_table. rewrite (loc_table (kept fs) n e (map Z.of_nat (seq 0 (length (kept fs)))) En) by (rewrite Forall_forall in NE; apply NE; eapply nth_error_In; exact En).
      cbn [bind]. unfold g. f_equal. apply f_equal2; [apply (map_contour_rows (fun c => (nth 0 (others c) NaN, nth 1 (others c) NaN)))|apply (map_contour_rows (fun c => (nth 8 (others c) NaN, nth 9 (others c) NaN)))]. }
  split; [|split].
  - intros A B. apply KA in A. apply DA in B. unfold plot_in_level. rewrite (LP A). cbn [bind].
    rewrite (right_ok (waiting [] h F ++ dropped_contours cs fs) D); [reflexivity| | |].
    + intros ->. destruct (dropped fs); [congruence|]. destruct HD as [HD _]. rewrite map_app in HD. destruct (map Some (pending [] F)); discriminate HD.
    + destruct (dropped fs); [congruence|]. destruct HD as [_ HD]. rewrite HD. apply FinFun.Injective_map_NoDup; [intros x y; apply Nat2Z.inj|apply seq_NoDup].
    + rewrite ED. destruct (dropped fs); [congruence|]. apply Forall2_app; assumption.
  - intro A. apply KN in A. unfold plot_in_level. rewrite A. reflexivity.
  - intros A B. apply KA in A. apply DN in B. unfold plot_in_level. rewrite (LP A). cbn [bind]. rewrite B in HD. rewrite HD. reflexivity.
Qed.
Print Assumptions C110_figure_of_a_level_partial.
(** A level that keeps two contours and drops one, after a level that dropped one: four entries, and the colours of both reasons. *)
Example C110_figure_case : exists st R D st', clean [mkCall (demo true) (Num 1) [gap]] initial_state st /\
  analyse (demo true) (Num 2) [south; sq1; sq2] st = (Ok (R, D), st') /\
  match plot_in_level R D with Ok (l, m) => map fst l = [sq1; sq2] /\ map snd m = ["m"; "gray"]%string | Err _ => False end.
Proof. do 4 eexists. split; [cbn; do 2 eexists; split; [vm_compute; reflexivity|reflexivity]|]. split; [vm_compute; reflexivity|]. vm_compute. split; reflexivity. Qed.

(** C110 fails: a level where every contour is an eddy, and a level where none is, cannot be drawn. *)
Theorem C110_figure_refuted :
  (exists s level cs R D st', five_parameters s /\ Forall (fun c => c <> []) cs /\ analyse s level cs initial_state = (Ok (R, D), st') /\
     (forall c, In c cs -> is_accepted s c) /\ cs <> [] /\ plot_in_level R D = Err TypeError) /\
  (exists s level cs R D st', five_parameters s /\ Forall (fun c => c <> []) cs /\ analyse s level cs initial_state = (Ok (R, D), st') /\
     (forall c, In c cs -> exists reason, is_rejected s c reason) /\ cs <> [] /\ plot_in_level R D = Err AttributeError).
Proof.
  split.
  - exists (demo true), (Num 1), [sq1]. do 3 eexists. split; [apply demo_five|]. split; [repeat constructor; discriminate|]. split; [vm_compute; reflexivity|].
    split; [|split; [discriminate|vm_compute; reflexivity]]. intros c [<-|[]]. split; [apply demo_not_degenerate_sq1|]. intros nb H. cbn in H.
    repeat (destruct H as [<-|H]; [vm_compute; reflexivity|]). destruct H.
  - exists (demo true), (Num 1), [south]. do 3 eexists. split; [apply demo_five|]. split; [repeat constructor; discriminate|]. split; [vm_compute; reflexivity|].
    split; [|split; [discriminate|vm_compute; reflexivity]]. intros c [<-|[]]. exists "area"%string. split.
    + intros [p [rest [E [H _]]]]. injection E as <- <-. vm_compute in H. apply H. reflexivity.
    + exists []. eexists. split; [|intros nb []]. unfold checks. cbn [app]. f_equal.
Qed.
Print Assumptions C110_figure_refuted.

(** *** the figure of all levels *)
(** The path of an eddy and the level at which it was found. *)
Definition path (e : eddy) : contour := map (fun c => (nth 0 (others c) NaN, nth 1 (others c) NaN)) e.
Definition found_at_level (e : eddy) (q : Q) : Prop := e <> [] /\ forall c, In c e -> nth 2 (others c) NaN = Num q.

Lemma neqb_iff a b : neqb (Num a) (Num b) = true <-> (a == b)%Q.
Proof. unfold neqb. apply Qeq_bool_iff. Qed.
Lemma unique_in seen l : (forall x, In x l -> exists q, x = Num q) -> forall y, In y (unique_values seen l) -> In y l /\ existsb (same_value y) seen = false.
Proof.
  revert seen. induction l as [|x l IH]; intros seen H y Hy; cbn [unique_values] in Hy; [destruct Hy|].
  destruct (existsb (same_value x) seen) eqn:E.
  - destruct (IH seen) with (y := y) as [A B]; [intros z Hz; apply H; right; exact Hz|exact Hy|]. split; [right; exact A|exact B].
  - destruct Hy as [->|Hy]; [split; [left; reflexivity|exact E]|]. destruct (IH (seen ++ [x])) with (y := y) as [A B]; [intros z Hz; apply H; right; exact Hz|exact Hy|].
    split; [right; exact A|]. rewrite existsb_app in B. apply orb_false_iff in B. apply B.
Qed.
Lemma unique_complete l : forall seen x q, In x l -> x = Num q -> (exists y, In y seen /\ neqb x y = true) \/ exists y, In y (unique_values seen l) /\ neqb x y = true.
Proof.
  induction l as [|a l IH]; intros seen x q H E; [destruct H|]. cbn [unique_values]. destruct H as [->|H].
  - destruct (existsb (same_value x) seen) eqn:X.
    + left. apply existsb_exists in X. destruct X as (y & Hy & S). exists y. split; [exact Hy|]. subst x. unfold same_value in S. cbn [is_nan andb] in S. rewrite orb_false_r in S. exact S.
    + right. exists x. split; [left; reflexivity|]. subst x. apply neqb_iff. reflexivity.
  - destruct (existsb (same_value a) seen) eqn:X; [exact (IH seen x q H E)|]. destruct (IH (seen ++ [a]) x q H E) as [(y & Hy & S)|(y & Hy & S)].
    + apply in_app_or in Hy. destruct Hy as [Hy|[<-|[]]]; [left; exists y; split; assumption|]. right. exists a. split; [left; reflexivity|exact S].
    + right. exists y. split; [right; exact Hy|exact S].
Qed.
Lemma neqb_sym a b : neqb a b = neqb b a.
Proof. destruct a as [|a], b as [|b]; try reflexivity. apply Bool.eq_true_iff_eq. rewrite !neqb_iff. split; intro H; symmetry; exact H. Qed.
Lemma unique_apart l : (forall x, In x l -> exists q, x = Num q) -> forall seen i j x y, (i < j)%nat -> nth_error (unique_values seen l) i = Some x -> nth_error (unique_values seen l) j = Some y -> neqb x y = false.
Proof.
  induction l as [|a l IH]; intros H seen i j x y L Hx Hy; cbn [unique_values] in Hx, Hy; [destruct i; discriminate Hx|].
  assert (H' : forall x, In x l -> exists q, x = Num q) by (intros z Hz; apply H; right; exact Hz).
  destruct (existsb (same_value a) seen) eqn:X; [exact (IH H' seen i j x y L Hx Hy)|]. destruct j as [|j]; [lia|]. destruct i as [|i]; cbn [nth_error] in Hx, Hy.
  - injection Hx as <-. apply nth_error_In in Hy. apply (unique_in _ _ H') in Hy. destruct Hy as [_ Hy]. rewrite existsb_app in Hy. apply orb_false_iff in Hy. destruct Hy as [_ Hy].
    cbn in Hy. rewrite orb_false_r in Hy. unfold same_value in Hy. apply orb_false_iff in Hy. rewrite neqb_sym. apply Hy.
  - apply (IH H' (seen ++ [a]) i j x y); [lia|exact Hx|exact Hy].
Qed.
Lemma where_spec l : forall i x y, In y l -> neqb x y = true -> exists k z, where_first i x l = Ok (i + k)%nat /\ nth_error l k = Some z /\ neqb x z = true.
Proof.
  induction l as [|a l IH]; intros i x y H E; [destruct H|]. cbn [where_first]. destruct (neqb x a) eqn:X.
  - exists 0%nat, a. rewrite Nat.add_0_r. repeat split. exact X.
  - destruct H as [->|H]; [congruence|]. destruct (IH (S i) x y H E) as (k & z & A & B & C). exists (S k), z. rewrite <- plus_n_Sm. repeat split; assumption.
Qed.

Lemma pigeon (U : list num) : forall L : list Q, (forall u, In u U -> exists q, In q L /\ neqb u (Num q) = true) ->
  (forall i j x y, (i < j)%nat -> nth_error U i = Some x -> nth_error U j = Some y -> neqb x y = false) -> (length U <= length L)%nat.
Proof.
  induction U as [|u U IH]; intros L HL HA; [cbn; lia|]. destruct (HL u (or_introl eq_refl)) as (q & Hq & E). apply in_split in Hq. destruct Hq as (l1 & l2 & ->).
  assert (length U <= length (l1 ++ l2))%nat; [|rewrite app_length in *; cbn; lia]. apply IH.
  - intros v Hv. destruct (HL v (or_intror Hv)) as (p & Hp & Ep). exists p. split; [|exact Ep]. apply in_app_or in Hp. apply in_or_app. destruct Hp as [Hp|[<-|Hp]]; [left; exact Hp| |right; exact Hp].
    exfalso. apply In_nth_error in Hv. destruct Hv as (n & Hn). assert (X := HA 0%nat (S n) u v ltac:(lia) eq_refl Hn).
    destruct u as [|a]; [discriminate E|]. destruct v as [|b]; [discriminate Ep|]. apply neqb_iff in E, Ep. assert (neqb (Num a) (Num b) = true); [|congruence]. apply neqb_iff. rewrite E, Ep. reflexivity.
  - intros i j x y Lij Hx Hy. exact (HA (S i) (S j) x y ltac:(lia) Hx Hy).
Qed.
Definition level_of (e : eddy) : Q := match e with c :: _ => match nth 2 (others c) NaN with Num q => q | NaN => 0%Q end | [] => 0%Q end.
Lemma level_of_found e q : found_at_level e q -> level_of e = q.
Proof. intros [N H]. destruct e as [|c e]; [congruence|]. unfold level_of. rewrite (H c (or_introl eq_refl)). reflexivity. Qed.
Lemma row0 k e : e <> [] -> exists r, filter (fun r => r_idx r =? 0) (contour_rows k e) = [r] /\ hd_error e = Some (r_cols r).
Proof.
  destruct e as [|c e]; [congruence|]. intros _. unfold contour_rows. cbn [length seq combine map]. cbn [filter r_idx fst]. change (Z.of_nat 0 =? 0) with true. eexists. split; [f_equal|reflexivity].
  apply filter_none. intros r Hr. apply in_map_iff in Hr. destruct Hr as ([i c'] & <- & Hi). apply in_combine_l in Hi. apply in_seq in Hi. cbn [r_idx fst]. apply Z.eqb_neq. lia.
Qed.
Lemma flat_map_rows {B} (g : eddy -> B) E : forall n,
  map (fun r => g (nth (Z.to_nat (r_id r) - n) E [])) (flat_map (fun ke => contour_rows (Z.of_nat (fst ke)) (snd ke)) (combine (seq n (length E)) E)) = flat_map (fun e => repeat (g e) (length e)) E.
Proof.
  induction E as [|e E IH]; intro n; [reflexivity|]. cbn [length seq combine flat_map fst snd]. rewrite map_app. apply f_equal2.
  - rewrite (map_ext_in _ (fun _ => g e)).
    + rewrite <- (map_length (fun r => r_cols r) (contour_rows (Z.of_nat n) e)) at 1 || idtac.
      assert (L : length (contour_rows (Z.of_nat n) e) = length e) by (unfold contour_rows; rewrite map_length, combine_length, seq_length; apply Nat.min_id).
      rewrite <- L. generalize (contour_rows (Z.of_nat n) e). induction l as [|r l IHl]; [reflexivity|]. cbn. f_equal. exact IHl.
    + intros r Hr. rewrite (contour_rows_id _ _ _ Hr), Nat2Z.id, Nat.sub_diag. reflexivity.
  - rewrite <- (IH (S n)). apply map_ext_in. intros r Hr. apply in_flat_map in Hr. destruct Hr as ([i y] & Hi & Hr). apply contour_rows_id in Hr. apply in_combine_l in Hi. apply in_seq in Hi. cbn [fst] in Hr.
    rewrite Hr, Nat2Z.id. replace (i - n)%nat with (S (i - S n)) by lia. reflexivity.
Qed.

Lemma in_combine_seq {A} (E : list A) k e : forall n, In (k, e) (combine (seq n (length E)) E) -> exists j, k = (n + j)%nat /\ nth_error E j = Some e.
Proof.
  induction E as [|x E IH]; intros n H; [destruct H|]. cbn [length seq combine] in H. destruct H as [H|H]; [injection H as <- <-; exists 0%nat; split; [lia|reflexivity]|].
  destruct (IH (S n) H) as (j & -> & Hj). exists (S j). split; [lia|exact Hj].
Qed.

(** On the table of the eddies E of a snapshot: the figure has, for each eddy, its contour (as many times as it has vertices) in a colour that depends on its level only;
    with no more levels than colours, eddies have the same colour exactly if they were found at the same level. *)
Theorem C110_figure_of_the_levels :
  forall ncolours E l, E <> [] -> Forall (fun e => exists q, found_at_level e q) E ->
  exists colour : Q -> nat,
    plot_multilevel ncolours (mkFrame (table E) l) = Ok (flat_map (fun e => repeat (path e, colour (level_of e)) (length e)) E) /\
    ((exists L : list Q, (length L <= ncolours)%nat /\ forall e q, In e E -> found_at_level e q -> exists q', In q' L /\ (q == q')%Q) ->
     forall e e' q q', In e E -> In e' E -> found_at_level e q -> found_at_level e' q' -> (colour (level_of e) = colour (level_of e') <-> (q == q')%Q)).
Proof.
  intros nc E l NE HE. rewrite Forall_forall in HE.
  set (levels := unique_values [] (map level_col (table E))).
  assert (HL : forall x, In x (map level_col (table E)) -> exists e, In e E /\ x = Num (level_of e)).
  { intros x Hx. apply in_map_iff in Hx. destruct Hx as (r & <- & Hr). apply table_In in Hr. destruct Hr as (e & He & Hc). exists e. split; [exact He|].
    destruct (HE e He) as (q & F). rewrite (level_of_found e q F). exact (proj2 F _ Hc). }
  assert (HN : forall x, In x (map level_col (table E)) -> exists q, x = Num q) by (intros x Hx; destruct (HL x Hx) as (e & _ & ->); eexists; reflexivity).
  assert (IN : forall e, In e E -> In (Num (level_of e)) (map level_col (table E))).
  { intros e He. destruct (HE e He) as (q & F). apply In_nth_error in He. destruct He as (k & Hk). assert (G := loc_table E k e l Hk (proj1 F)). unfold loc in G. cbn [rows] in G.
    destruct e as [|c e]; [destruct (proj1 F); reflexivity|]. rewrite (level_of_found _ _ F). rewrite <- (proj2 F c (or_introl eq_refl)).
    change (nth 2 (others c) NaN) with (level_col (mkRow (Z.of_nat k) 0 (Z.of_nat 0) c)). apply in_map.
    assert (I : In (mkRow (Z.of_nat k) 0 (Z.of_nat 0) c) (filter (fun r => r_id r =? Z.of_nat k) (table E))) by (destruct (filter _ _) as [|r0 l0]; [discriminate G|]; injection G as ->; left; reflexivity).
    apply filter_In in I. apply I. }
  set (pos := fun q => match where_first 0 (Num q) levels with Ok k => k | Err _ => 0%nat end).
  assert (WS : forall e, In e E -> exists z, where_first 0 (Num (level_of e)) levels = Ok (pos (level_of e)) /\ nth_error levels (pos (level_of e)) = Some z /\ neqb (Num (level_of e)) z = true).
  { intros e He. destruct (unique_complete (map level_col (table E)) [] (Num (level_of e)) (level_of e) (IN e He) eq_refl) as [(y & [] & _)|(y & Hy & Ey)].
    destruct (where_spec levels 0 (Num (level_of e)) y Hy Ey) as (k & z & A & B & C). exists z. unfold pos. rewrite A. cbn [plus]. repeat split; assumption. }
  exists (fun q => level_colour nc (length levels) (pos q)). split.
  - unfold plot_multilevel. assert (empty (mkFrame (table E) l) = false) as ->.
    { unfold empty, table. cbn [rows]. destruct E as [|e E]; [congruence|]. destruct (HE e (or_introl eq_refl)) as (q & F & _). cbn [length seq combine flat_map fst snd].
      destruct (contour_rows (Z.of_nat 0) e) eqn:C; [apply contour_rows_nil in C; contradiction|reflexivity]. }
    cbn [rows]. fold levels.
    rewrite (traverse_ok _ (fun r => (path (nth (Z.to_nat (r_id r) - 0) E []), level_colour nc (length levels) (pos (level_of (nth (Z.to_nat (r_id r) - 0) E [])))))).
    + f_equal. unfold table. apply (flat_map_rows (fun e => (path e, level_colour nc (length levels) (pos (level_of e)))) E 0).
    + intros r Hr. unfold table in Hr. apply in_flat_map in Hr. destruct Hr as ([k e] & Hke & Hr). cbn [fst snd] in Hr. rewrite (contour_rows_id _ _ _ Hr), Nat.sub_0_r, Nat2Z.id.
      assert (Hk : nth_error E k = Some e) by (destruct (in_combine_seq E k e 0 Hke) as (j & -> & Hj); exact Hj).
      rewrite (nth_error_nth _ _ _ Hk). assert (He := nth_error_In _ _ Hk). destruct (HE e He) as (q & F). rewrite (loc_table E k e l Hk (proj1 F)). cbn [bind].
      destruct (row0 (Z.of_nat k) e (proj1 F)) as (r1 & -> & H1). destruct (WS e He) as (z & W & _ & _).
      assert (level_col r1 = Num (level_of e)) as ->.
      { destruct e as [|c e]; [discriminate H1|]. injection H1 as H1. rewrite (level_of_found _ _ F). unfold level_col, col. rewrite <- H1. apply (proj2 F). left. reflexivity. }
      rewrite W. cbn [bind]. f_equal. apply f_equal2; [|reflexivity]. apply (map_contour_rows (fun c => (nth 0 (others c) NaN, nth 1 (others c) NaN))).
  - intros (L & HLen & HLc) e e' q q' He He' F F'. rewrite <- (level_of_found _ _ F), <- (level_of_found _ _ F').
    destruct (WS e He) as (z & W1 & W2 & W3). destruct (WS e' He') as (z' & W1' & W2' & W3').
    assert (LL : (length levels <= nc)%nat).
    { apply Nat.le_trans with (length L); [|exact HLen]. apply pigeon.
      - intros u Hu. apply (unique_in [] _ HN) in Hu. destruct (HL u (proj1 Hu)) as (e0 & He0 & ->). destruct (HE e0 He0) as (q0 & F0). destruct (HLc e0 q0 He0 F0) as (q1 & A & B).
        exists q1. split; [exact A|]. rewrite (level_of_found _ _ F0). apply neqb_iff. exact B.
      - intros i j x y. exact (unique_apart _ HN [] i j x y). }
    split.
    + intro C. destruct (Nat.lt_trichotomy (pos (level_of e)) (pos (level_of e'))) as [X|[X|X]].
      * exfalso. assert (P : (pos (level_of e') < length levels)%nat) by (apply nth_error_Some; congruence).
        assert (Y := C73_levels_apart_partial nc (length levels) _ _ LL (conj X P)). lia.
      * rewrite X in W2. rewrite W2 in W2'. injection W2' as <-. destruct z as [|z]; [discriminate W3|]. apply neqb_iff in W3, W3'. rewrite W3, W3'. reflexivity.
      * exfalso. assert (P : (pos (level_of e) < length levels)%nat) by (apply nth_error_Some; congruence).
        assert (Y := C73_levels_apart_partial nc (length levels) _ _ LL (conj X P)). lia.
    + intro C. apply f_equal. destruct z as [|z]; [discriminate W3|]. destruct z' as [|z']; [discriminate W3'|]. apply neqb_iff in W3, W3'.
      assert (Ez : neqb (Num z) (Num z') = true) by (apply neqb_iff; rewrite <- W3, <- W3'; exact C).
      destruct (Nat.lt_trichotomy (pos (level_of e)) (pos (level_of e'))) as [X|[X|X]]; [exfalso|exact X|exfalso].
      * assert (Y := unique_apart _ HN [] _ _ _ _ X W2 W2'). congruence.
      * assert (Y := unique_apart _ HN [] _ _ _ _ X W2' W2). rewrite neqb_sym in Y. congruence.
Qed.
Print Assumptions C110_figure_of_the_levels.
(** ... and a snapshot without eddies cannot be drawn. *)
Theorem C110_no_eddies_refuted :
  forall query keep ncolours s contours_at levels, (forall l, proper (mkCall s l (contours_at l))) ->
  (forall l c, In c (contours_at l) -> ~ is_accepted s c /\ forall e, ~ does_raise s c e) ->
  exists R, fst (detect_snapshot query keep (fun l => analyse s l (contours_at l)) levels initial_state) = Ok R /\ plot_multilevel ncolours R = Err AttributeError.
Proof.
  intros query keep nc s cat levels Hp Hn. destruct (C25_nonzero_levels_in_order query keep [] initial_state s cat levels (Forall_nil _) eq_refl Hp) as (sel & _ & [(NS & F & E)|(l & c & e & e' & _ & Hc & Hr & _)]).
  - exists empty_frame. split; [|reflexivity]. rewrite E. unfold P_Levels.scan.
    assert (A : Forall (fun N => N = []) NS).
    { clear - F Hn. induction F as [|l N ls NS (fs & Hf & ->) F IH]; constructor; [|exact IH].
      assert (H : forall c, In c (cat l) -> ~ is_accepted s c) by (intros c Hc; apply (Hn l c Hc)). clear - Hf H. induction Hf as [|c f cs fs J Hf IH]; [reflexivity|].
      unfold kept; cbn [flat_map]; fold (kept fs). rewrite IH by (intros c0 Hin; apply H; right; exact Hin). destruct f as [|e|r]; try reflexivity. exfalso. exact (H c (or_introl eq_refl) (proj1 J)). }
    clear - A. induction A as [|N NS -> A IH]; [reflexivity|exact IH].
  - exfalso. exact (proj2 (Hn l c Hc) e Hr).
Qed.
Print Assumptions C110_no_eddies_refuted.
Example C110_no_eddies_case : (forall l, proper (mkCall (demo true) l ((fun _ => [south]) l))) /\ forall c, In c [south] -> ~ is_accepted (demo true) c /\ forall e, ~ does_raise (demo true) c e.
Proof.
  split; [intro l; split; [apply demo_five|repeat constructor; discriminate]|]. intros c [<-|[]].
  assert (R : is_rejected (demo true) south "area") by exact (conj (proj1 C67_example) (ex_intro _ [] (ex_intro _ (tl (checks (enclosed_area demo_flops) (disc_radius demo_flops) (s_rossby (demo true)) (s_fit_ellipse (demo true)) (s_eccentricity (demo true)) (s_similarity (demo true)) (s_data (demo true)) (s_gauss_fit (demo true)) (s_crit (demo true)) true south)) (conj eq_refl (fun nb (H : In nb []) => False_ind _ H))))).
  split; [intro A; exact (accepted_not_rejected _ _ _ A R)|intros e A; exact (rejected_not_raises _ _ _ _ R A)].
Qed.
Definition at_level (q x : Z) : cols := mkCols (Num 0) (Num 0) (Num 1) (Num 0) (Num 0) [Num (inject_Z x); Num 0; Num (inject_Z q)].
Example C110_levels_case : let E := [[at_level 1 0; at_level 1 1]; [at_level 2 5]; [at_level 1 7]] in
  Forall (fun e => exists q, found_at_level e q) E /\
  match plot_multilevel 100 (mkFrame (table E) [0; 1; 2]) with Ok l => map snd l = [0; 0; 99; 0]%nat | Err _ => False end.
Proof.
  split.
  - repeat (constructor; [eexists; split; [discriminate|]; intros c Hc; cbn in Hc; intuition (subst; reflexivity)|]). constructor.
  - vm_compute. reflexivity.
Qed.

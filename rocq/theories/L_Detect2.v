(** The loop over the contours of a level and the two collectors. *)
From Coq Require Import Lia.
From Verif Require Import M_Base M_Tables M_Area M_Eddy M_Detect S_Tracking S_Levels S_Detect L_Base L_Eddy L_Detect L_Levels.
Open Scope Z_scope.

(** Eddies numbered from k. *)
Fixpoint num_rows (k : Z) (E : list eddy) : list row :=
  match E with [] => [] | e :: t => contour_rows k e ++ num_rows (k + 1) t end.
Lemma num_rows_table E : num_rows 0 E = table E.
Proof.
  unfold table. change 0 with (Z.of_nat 0). generalize 0%nat as s. induction E as [|e E IH]; intro s; [reflexivity|].
  cbn [num_rows length seq combine flat_map fst snd]. replace (Z.of_nat s + 1) with (Z.of_nat (S s)) by lia. rewrite (IH (S s)). reflexivity.
Qed.
Lemma num_rows_app E F k : num_rows k (E ++ F) = num_rows k E ++ num_rows (k + Z.of_nat (length E)) F.
Proof.
  revert k. induction E as [|e E IH]; intro k; [cbn; f_equal; lia|].
  cbn [app num_rows length]. rewrite IH, app_assoc. f_equal. f_equal. lia.
Qed.
Lemma num_rows_used E k : Forall (fun e : eddy => e <> []) E -> used (num_rows k E) = map (fun i => k + Z.of_nat i) (seq 0 (length E)).
Proof.
  intro H. assert (Hin : forall x, In x (map r_id (num_rows k E)) <-> k <= x < k + Z.of_nat (length E)).
  { revert k. induction H as [|e E He HE IH]; intro k; [cbn; lia|]. intro x. cbn [num_rows length]. rewrite map_app, in_app_iff, (IH (k+1)).
    assert (Hc : In x (map r_id (contour_rows k e)) <-> x = k).
    { split.
      - intro Hx. apply in_map_iff in Hx. destruct Hx as (r & <- & Hr). apply (contour_rows_In k e r Hr).
      - intros ->. destruct e as [|p e]; [congruence|]. rewrite contour_rows_cons. left; reflexivity. }
    rewrite Hc. lia. }
  unfold used. 
  assert (Hs : sort_uniq (map (fun i => k + Z.of_nat i) (seq 0 (length E))) = map (fun i => k + Z.of_nat i) (seq 0 (length E))).
  { apply sort_uniq_fix. generalize (length E) 0%nat. induction n as [|n IHn]; intro s; [constructor|]. cbn. constructor; [apply IHn|].
    apply Forall_forall. intros y Hy. apply in_map_iff in Hy. destruct Hy as (i & <- & Hi). apply in_seq in Hi. lia. }
  rewrite <- Hs. apply sort_uniq_ext. intro x. rewrite Hin. rewrite in_map_iff. split.
  - intros Hx. exists (Z.to_nat (x - k)). split; [lia|]. apply in_seq. lia.
  - intros (i & <- & Hi). apply in_seq in Hi. lia.
Qed.

Lemma combine_map_r {A B C} (f : B -> C) (l : list A) (m : list B) : combine l (map f m) = map (fun p => (fst p, f (snd p))) (combine l m).
Proof. revert m. induction l as [|a l IH]; intros [|b m]; cbn; [reflexivity..|]. f_equal. apply IH. Qed.

Lemma discard_ok e r id : discardable e -> exists d, discard_row e r id = Ok [(id, d)] /\ noted_reason (id, d) = Some r.
Proof.
  intros (l & a & rd & err & cx & cy & ecc & s & gerr & m & H1 & H2 & H3 & H4 & H5 & H6 & H7 & H8 & H9).
  unfold discard_row, to_dict, discarded_properties. cbn [fold_left bind attrs String.eqb Ascii.eqb Bool.eqb].
  destruct e; cbn in *. subst. destruct H9 as [->|(v & y & x & ->)].
  - eexists. split; reflexivity.
  - eexists. split; reflexivity.
Qed.

Section Level.
Variable flops : fops num.
Variable rossby : num -> num.
Variable fit_ellipse : contour -> res (contour * (num * num * num)).
Variable eccentricity : num -> num -> num.
Variable similarity : contour -> contour -> res num.
Variable data_in_contour : contour -> res (num * (num * num * num)).
Variable gauss_fit : contour -> res (list num * list contour).
Variable level : num.
Variable crit : criteria.
Variable skip : bool.
Hypothesis gauss_five : forall c g gc, gauss_fit c = Ok (g, gc) -> length g = 5%nat.

Notation area := (area_of flops).
Notation radius := (radius_of flops).
Notation level_contours := (level_contours flops rossby fit_ellipse eccentricity similarity data_in_contour gauss_fit level crit skip).
Notation detect_one_level := (detect_one_level flops rossby fit_ellipse eccentricity similarity data_in_contour gauss_fit level crit skip).
Notation raises := (raises area radius rossby fit_ellipse eccentricity similarity data_in_contour gauss_fit crit skip).
Notation recorded := (recorded area radius fit_ellipse eccentricity similarity data_in_contour gauss_fit level skip).
Notation judged := (judged area radius rossby fit_ellipse eccentricity similarity data_in_contour gauss_fit level crit skip).
Notation complete := (complete flops fit_ellipse eccentricity similarity data_in_contour gauss_fit level skip).

Lemma store_complete c e : c <> [] -> ~ degenerate c -> complete c e ->
  exists ed, recorded c ed /\ ed <> [] /\ forall id, store_rows e id = Ok (contour_rows id ed).
Proof.
  intros Hc Hnd (el & a & b & th & err & sgn & v & y & x & gp & g & gerr & Ef & Es & Ed & Hg & He).
  assert (Hlen : (2 <= length c)%nat).
  { destruct c as [|p [|q c]]; [congruence|exfalso; apply Hnd, single_degenerate|cbn; lia]. }
  set (pc := point_columns level (area c) (radius c) a b th err (eccentricity a b) (fst (centre c)) (snd (centre c)) sgn v y x g gerr).
  exists (map pc c). split; [|split].
  - exists el, a, b, th, err, sgn, v, y, x, g, gerr. refine (conj Ef (conj Es (conj Ed (conj _ eq_refl)))).
    destruct skip; [split; apply Hg|]. destruct Hg as (_ & gc & G1 & G2). exists gc. auto.
  - destruct c; [congruence|discriminate].
  - intro id. unfold store_rows. subst e.
    set (gd := if skip then no_gauss_dict else gauss_dict g).
    rewrite (final_to_dict id c _ _ _ _ _ _ _ _ _ _ _ _ _ _ gp gerr gd Hlen).
    2:{ unfold gd. destruct skip; [left; split; [apply Hg|reflexivity]|right]. destruct Hg as (-> & gc & G1 & G2). exists g.
        split; [apply (gauss_five _ _ _ G1)|split; reflexivity]. }
    cbn [bind]. rewrite table_length_final.
    2:{ unfold gd. destruct skip; [left; reflexivity|right]. destruct Hg as (-> & gc & G1 & G2). exists g. split; [apply (gauss_five _ _ _ G1)|reflexivity]. }
    cbn [bind]. rewrite (sequence_seq _ (fun ip => mkRow id 0 (Z.of_nat (fst ip)) (pc (snd ip))) (combine (seq 0 (length c)) c) 0) || idtac.
    assert (Hseq : length c = length (combine (seq 0 (length c)) c)) by (rewrite combine_length, seq_length; lia).
    rewrite Hseq at 1. rewrite (sequence_seq _ (fun ip => mkRow id 0 (Z.of_nat (fst ip)) (pc (snd ip)))).
    + f_equal. unfold contour_rows. rewrite map_length, combine_map_r, map_map. reflexivity.
    + intros i [j p] Hi. cbn [plus].
      assert (Hj : j = i /\ nth_error c i = Some p).
      { assert (HG : forall s, nth_error (combine (seq s (length c)) c) i = Some (j, p) -> j = (s + i)%nat /\ nth_error c i = Some p).
        { clear. revert i. induction c as [|q c IH]; intros i s H; [destruct i; discriminate|]. destruct i as [|i]; cbn in *.
          - injection H as <- <-. split; [lia|reflexivity].
          - destruct (IH i (S s) H) as [A B]. split; [lia|exact B]. }
        apply (HG 0%nat Hi). }
      destruct Hj as [-> Hp].
      rewrite (cols_final id c _ _ _ _ _ _ _ _ _ _ _ _ _ _ gd gerr g i p Hp); [reflexivity|].
      unfold gd. destruct skip; [left; split; [reflexivity|apply Hg]|right]. destruct Hg as (-> & gc & G1 & G2). exists g.
      split; [apply (gauss_five _ _ _ G1)|split; reflexivity].
Qed.

(** The discarded rows of the reasons rs, labelled from k. *)
Definition noted (k : Z) (rs : list string) (D : list (Z * dict)) : Prop :=
  map fst D = map (fun i => k + Z.of_nat i) (seq 0 (length rs)) /\ map noted_reason D = map Some rs.
Lemma noted_cons k r rs d D : noted_reason (k, d) = Some r -> noted (k + 1) rs D -> noted k (r :: rs) ((k, d) :: D).
Proof.
  intros H [A B]. split; cbn [map length seq fst].
  - f_equal; [lia|]. rewrite A, <- seq_shift, map_map. apply map_ext. intro; lia.
  - rewrite H, B. reflexivity.
Qed.

Definition after (s : state) (fs : list fate) (D : list (Z * dict)) : state :=
  (mkColl (calls (fst s) + Z.of_nat (length (kept fs))) (df_store (fst s) ++ num_rows (calls (fst s)) (kept fs)),
   mkColl (calls (snd s) + Z.of_nat (length (dropped fs))) (df_store (snd s) ++ D)).
Lemma after_nil s : after s [] [] = s.
Proof. destruct s as [[a b] [c d]]. unfold after. cbn. rewrite !Z.add_0_r, !app_nil_r. reflexivity. Qed.

Lemma collect_ok {A} (f : Z -> res (list A)) s t : f (calls s) = Ok t ->
  collect f s = (Ok (df_store s ++ t), mkColl (calls s + 1) (df_store s ++ t)).
Proof. intro H. unfold collect. rewrite H. reflexivity. Qed.

Lemma level_loop_spec cs : Forall (fun c => c <> []) cs -> forall info disc s,
  match level_contours cs info disc s with
  | (Ok (info', disc'), s') => exists fs D, Forall2 judged cs fs /\ noted (calls (snd s)) (dropped fs) D /\ Forall (fun e => e <> []) (kept fs) /\
      s' = after s fs D /\ info' = (if kept fs then info else Some (df_store (fst s'))) /\
      disc' = (if dropped fs then disc else Some (df_store (snd s')))
  | (Err x, s') => exists pre c post fs D, cs = pre ++ c :: post /\ Forall2 judged pre fs /\ noted (calls (snd s)) (dropped fs) D /\
      Forall (fun e => e <> []) (kept fs) /\ raises c x /\ s' = after s fs D
  end.
Proof.
  induction cs as [|c cs IH]; intros Hne info disc s.
  - exists [], []. repeat split; try constructor. rewrite after_nil; reflexivity.
  - inversion Hne as [|? ? Hc Hcs]; subst. assert (He := examine_spec flops rossby fit_ellipse eccentricity similarity data_in_contour gauss_fit level crit skip c Hc).
    cbn [M_Detect.level_contours].
    destruct (examine flops rossby fit_ellipse eccentricity similarity data_in_contour gauss_fit level crit skip c) as [[|r e|e]|x].
    + specialize (IH Hcs info disc s). destruct (level_contours cs info disc s) as [[[info' disc']|x] s'].
      * destruct IH as (fs & D & H1 & H2 & H3 & H4 & H5 & H6). exists (Ignored :: fs), D. repeat split; try assumption; try apply H2. constructor; assumption.
      * destruct IH as (pre & c' & post & fs & D & H0 & H1 & H2 & H3 & H4 & H5). exists (c :: pre), c', post, (Ignored :: fs), D.
        subst cs. repeat split; try assumption; try apply H2; try apply H4. constructor; assumption.
    + destruct He as [Hr Hd]. destruct (discard_ok e r (calls (snd s)) Hd) as (d & Hd1 & Hd2).
      unfold discarded. rewrite (collect_ok _ _ _ Hd1).
      set (s1 := (fst s, mkColl (calls (snd s) + 1) (df_store (snd s) ++ [(calls (snd s), d)]))).
      specialize (IH Hcs info (Some (df_store (snd s) ++ [(calls (snd s), d)])) s1).
      assert (Haf : forall fs D, after s1 fs D = after s (Dropped r :: fs) ((calls (snd s), d) :: D)).
      { intros. unfold after, s1. cbn [fst snd calls df_store]. change (kept (Dropped r :: fs)) with (kept fs). change (dropped (Dropped r :: fs)) with (r :: dropped fs). cbn [length]. f_equal. f_equal; [lia|].
        rewrite <- app_assoc. reflexivity. }
      fold s1. destruct (level_contours cs info _ s1) as [[[info' disc']|x] s'].
      * destruct IH as (fs & D & H1 & H2 & H3 & H4 & H5 & H6). exists (Dropped r :: fs), ((calls (snd s), d) :: D).
        split; [constructor; assumption|]. split; [apply noted_cons; assumption|]. split; [assumption|]. split; [rewrite H4; apply Haf|].
        split; [exact H5|]. rewrite H6. cbn [dropped flat_map app]. fold (dropped fs). destruct (dropped fs) eqn:Edr; [|reflexivity].
        f_equal. rewrite H4. unfold after, s1. cbn [fst snd df_store]. destruct H2 as [H2 _]. apply (f_equal (@length Z)) in H2.
        rewrite map_length, map_length, seq_length in H2. destruct D; [|discriminate]. symmetry; apply app_nil_r.
      * destruct IH as (pre & c' & post & fs & D & H0 & H1 & H2 & H3 & H4 & H5). exists (c :: pre), c', post, (Dropped r :: fs), ((calls (snd s), d) :: D).
        subst cs. split; [reflexivity|]. split; [constructor; assumption|]. split; [apply noted_cons; assumption|]. split; [assumption|]. split; [assumption|].
        rewrite H5. apply Haf.
    + destruct He as [Ha Hco]. destruct (store_complete c e Hc (proj1 Ha) Hco) as (ed & Hrec & Hne' & Hst).
      unfold store. rewrite (collect_ok _ _ _ (Hst (calls (fst s)))).
      set (s1 := (mkColl (calls (fst s) + 1) (df_store (fst s) ++ contour_rows (calls (fst s)) ed), snd s)).
      specialize (IH Hcs (Some (df_store (fst s) ++ contour_rows (calls (fst s)) ed)) disc s1).
      assert (Haf : forall fs D, after s1 fs D = after s (Kept ed :: fs) D).
      { intros. unfold after, s1. cbn [fst snd calls df_store]. change (kept (Kept ed :: fs)) with (ed :: kept fs). change (dropped (Kept ed :: fs)) with (dropped fs). cbn [length num_rows]. f_equal. f_equal; [lia|].
        rewrite <- app_assoc. reflexivity. }
      fold s1. destruct (level_contours cs _ disc s1) as [[[info' disc']|x] s'].
      * destruct IH as (fs & D & H1 & H2 & H3 & H4 & H5 & H6). exists (Kept ed :: fs), D.
        split; [constructor; [split; assumption|assumption]|]. split; [exact H2|]. split; [constructor; assumption|]. split; [rewrite H4; apply Haf|].
        split; [|exact H6]. rewrite H5. cbn [kept flat_map app]. fold (kept fs). destruct (kept fs) eqn:Edr; [|reflexivity].
        f_equal. rewrite H4. unfold after, s1. cbn [fst snd df_store]. rewrite Edr. cbn [num_rows]. symmetry; apply app_nil_r.
      * destruct IH as (pre & c' & post & fs & D & H0 & H1 & H2 & H3 & H4 & H5). exists (c :: pre), c', post, (Kept ed :: fs), D.
        subst cs. split; [reflexivity|]. split; [constructor; [split; assumption|assumption]|]. split; [exact H2|]. split; [constructor; assumption|]. split; [assumption|].
        rewrite H5. apply Haf.
    + exists [], c, cs, [], []. repeat split; try constructor; try assumption; try apply He. rewrite after_nil. reflexivity.
Qed.
End Level.

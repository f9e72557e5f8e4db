(** The pipeline of one level meets its specification. *)
From Coq Require Import Lia.
From Verif Require Import M_Base M_Tables M_Area M_Eddy M_Detect S_Tracking S_Levels S_Detect L_Base L_Eddy.
Open Scope Z_scope.

(** *** means *)
Lemma fold_nadd_NaN l : fold_left nadd l NaN = NaN.
Proof. induction l as [|x l IH]; [reflexivity|]. exact IH. Qed.
Lemma fold_nadd_num l : forallb (fun x => negb (is_nan x)) l = true -> forall q, fold_left nadd l (Num q) = Num (fold_left Qplus (valid l) q).
Proof.
  induction l as [|x l IH]; intros H q; [reflexivity|]. cbn in H. apply andb_true_iff in H. destruct H as [H1 H2].
  destruct x as [|a]; [discriminate|]. cbn [fold_left nadd valid flat_map app]. apply (IH H2).
Qed.
Lemma fold_nadd_nan l : forallb (fun x => negb (is_nan x)) l = false -> forall q, fold_left nadd l q = NaN.
Proof.
  induction l as [|x l IH]; intros H q; [discriminate|]. cbn in H. destruct x as [|a]; cbn [fold_left].
  - assert (nadd q NaN = NaN) as -> by (destruct q; reflexivity). apply fold_nadd_NaN.
  - cbn in H. apply IH. exact H.
Qed.
Lemma valid_length l : forallb (fun x => negb (is_nan x)) l = true -> length (valid l) = length l.
Proof.
  induction l as [|x l IH]; intro H; [reflexivity|]. cbn in H. apply andb_true_iff in H. destruct H as [H1 H2].
  destruct x as [|a]; [discriminate|]. cbn. f_equal. apply IH, H2.
Qed.
Lemma nmean_num l : forallb (fun x => negb (is_nan x)) l = true -> nmean l = Qmean (valid l).
Proof.
  intro H. unfold nmean, nsum, Qmean. rewrite fold_nadd_num by exact H. rewrite <- (valid_length l H). destruct (valid l); reflexivity.
Qed.
Lemma nmean_all l : nmean l = mean_all l.
Proof.
  unfold mean_all. destruct (forallb _ l) eqn:E; [apply nmean_num; exact E|].
  unfold nmean, nsum. rewrite fold_nadd_nan by exact E. unfold ndiv. destruct (length l); reflexivity.
Qed.
Lemma valid_filter l : valid (filter (fun x => negb (is_nan x)) l) = valid l.
Proof. induction l as [|[|a] l IH]; [reflexivity|exact IH|]. cbn. f_equal. exact IH. Qed.
Lemma nnanmean_centre l : nnanmean l = Qmean (valid l).
Proof.
  unfold nnanmean. rewrite nmean_num; [rewrite valid_filter; reflexivity|]. apply forallb_forall. intros x Hx. apply filter_In in Hx. apply Hx.
Qed.
Lemma center_of_centre c : center_of c = centre c.
Proof. unfold center_of, centre. rewrite !nnanmean_centre. reflexivity. Qed.

Lemma close_nan_iff m f : close_nan m f = true <-> coincide m f.
Proof.
  unfold close_nan, isclose, coincide. destruct m as [|a], f as [|b]; cbn; try (split; [discriminate|contradiction]); [split; auto|].
  rewrite orb_false_r. apply Qle_bool_iff.
Qed.
Lemma singular_iff c b : singular c = Ok b -> (b = true <-> degenerate c).
Proof.
  unfold singular. destruct c as [|p c0] eqn:Ec; [discriminate|]. rewrite <- Ec. intro H. injection H as <-.
  rewrite andb_true_iff, !close_nan_iff, !nmean_all. split.
  - intros [A B]. exists p, c0. rewrite <- Ec. auto.
  - intros (p' & rest & E & A & B). assert (p' = p) by congruence. subst p'. auto.
Qed.
Lemma single_degenerate p : degenerate [p].
Proof.
  exists p, []. split; [reflexivity|]. assert (H : forall x, coincide (mean_all [x]) x).
  { intros [|a]; [exact I|].
    change (Qabs ((0 + a) / inject_Z 1 - a) <= (1 # 100000000) + (1 # 100000) * Qabs a)%Q.
    assert (E : ((0 + a) / inject_Z 1 - a == 0)%Q) by (unfold inject_Z; field).
    apply (Qle_trans _ (Qabs 0)); [apply Qle_lteq; right; apply Qabs_wd; exact E|].
    assert (H := Qabs_nonneg a). apply Qle_trans with (1 # 100000000)%Q; [discriminate|].
    rewrite <- (Qplus_0_r (1 # 100000000)) at 1. apply Qplus_le_r. apply Qmult_le_0_compat; [discriminate|exact H]. }
  split; apply H.
Qed.

Section Level.
Variable flops : fops num.
Variable rossby : num -> num.
Variable fit_ellipse : contour -> res (contour * (num * num * num)).
Variable eccentricity : num -> num -> num.
Variable similarity : contour -> contour -> res num.
Variable data_in_contour : contour -> res (num * (num * num * num)).
Variable gauss_fit : contour -> res (list num * list contour).
Variable level : num.
Variable crit : criteria.
Variable skip : bool.
(** The optimiser returns as many parameters as the initial guess has: five. *)
Hypothesis gauss_five : forall c g gc, gauss_fit c = Ok (g, gc) -> length g = 5%nat.

Notation area := (area_of flops).
Notation radius := (radius_of flops).
Notation examine := (examine flops rossby fit_ellipse eccentricity similarity data_in_contour gauss_fit level crit skip).
Notation accepted := (accepted area radius rossby fit_ellipse eccentricity similarity data_in_contour gauss_fit crit skip).
Notation rejected := (rejected area radius rossby fit_ellipse eccentricity similarity data_in_contour gauss_fit crit skip).
Notation raises := (raises area radius rossby fit_ellipse eccentricity similarity data_in_contour gauss_fit crit skip).
Notation recorded := (recorded area radius fit_ellipse eccentricity similarity data_in_contour gauss_fit level skip).
Notation checks := (checks area radius rossby fit_ellipse eccentricity similarity data_in_contour gauss_fit crit skip).

(** A stored object is complete. *)
Definition complete (c : contour) (e : eddy_obj) : Prop :=
  exists el a b th err sgn v y x gp g gerr,
    fit_ellipse c = Ok (el, (a, b, th)) /\ similarity c el = Ok err /\ data_in_contour c = Ok (sgn, (v, y, x)) /\
    (if skip then gp = scalar VNone /\ g = [NaN] /\ gerr = Num 0
     else gp = vector g /\ exists gc, gauss_fit c = Ok (g, gc) /\ similarity c (List.concat gc) = Ok gerr) /\
    e = final_obj c level (area c) (radius c) a b th err (eccentricity a b) (fst (centre c)) (snd (centre c)) sgn v y x gp gerr.

(** The parts of an object that [discarded] needs. *)
Definition discardable (e : eddy_obj) : Prop :=
  exists l a r err cx cy ecc s gerr m,
    a_level e = scalar (VNum l) /\ a_area e = scalar (VNum a) /\ a_radius e = scalar (VNum r) /\ a_ellipse_error e = scalar (VNum err) /\
    a_center e = vector [cx; cy] /\ a_eccen e = scalar (VNum ecc) /\ a_sign e = scalar (VNum s) /\ a_gauss_error e = scalar (VNum gerr) /\
    (a_maxima e = scalar (VNum m) \/ exists v y x, a_maxima e = mkArr [3%nat; 1%nat] (map VNum [v; y; x])).

Lemma examine_spec c : c <> [] ->
  match examine c with
  | Ok Skip => degenerate c
  | Ok (Discard r e) => rejected c r /\ discardable e
  | Ok (Store e) => accepted c /\ complete c e
  | Err x => raises c x
  end.
Proof.
  intro Hc. unfold M_Detect.examine. destruct (singular c) as [s|] eqn:Es; [|destruct c; [congruence|discriminate]]. cbn [bind].
  assert (Hs := singular_iff c s Es). destruct s; [apply Hs; reflexivity|].
  assert (Hnd : ~ degenerate c) by (intro H; apply Hs in H; discriminate). clear Hs Es.
  assert (Hch : forall r pre post, checks c = (pre ++ (r, Ok false) :: post)%list -> (forall nb, In nb pre -> snd nb = Ok true) -> rejected c r).
  { intros r pre post H1 H2. split; [exact Hnd|]. eauto. }
  assert (Hra : forall r x pre post, checks c = (pre ++ (r, Err x) :: post)%list -> (forall nb, In nb pre -> snd nb = Ok true) -> raises c x).
  { intros r x pre post H1 H2. split; [exact Hnd|]. eauto. }
  Ltac disc1 := unfold discardable; do 10 eexists; repeat split; left; reflexivity.
  Ltac disc2 := unfold discardable; do 9 eexists; exists NaN; repeat split; right; do 3 eexists; reflexivity.
  Ltac fin Hcc := rewrite <- Hcc; reflexivity.
  Ltac allok := intros nb Hnb; cbn in Hnb; repeat (destruct Hnb as [<-|Hnb]; [assumption|]); destruct Hnb.
  (* area *)
  assert (Hcc := center_of_centre c). rewrite !Hcc.
  destruct (ngt (radius c) _) eqn:E1.
  { split; [|disc1]. apply (Hch "area"%string [] (tl (checks c))); [|intros nb []].
    unfold S_Detect.checks, size_check. rewrite E1. reflexivity. }
  assert (K1 : size_check radius rossby crit c = Ok true) by (unfold size_check; rewrite E1; reflexivity).
  (* ellipse *)
  destruct (fit_ellipse c) as [[el [[a b] th]]|x] eqn:Ef; cbn [bind].
  2:{ apply (Hra "ellipse_area"%string x [("area"%string, size_check radius rossby crit c)] (tl (tl (checks c)))).
      - unfold S_Detect.checks, area_check. rewrite Ef. reflexivity.
      - allok. }
  unfold isclose. destruct (nle _ _) eqn:E2; cbn [negb].
  2:{ split; [|disc1]. apply (Hch "ellipse_area"%string [("area"%string, size_check radius rossby crit c)] (tl (tl (checks c)))).
      - unfold S_Detect.checks, area_check. rewrite Ef. cbn [bind fst]. rewrite E2. reflexivity.
      - allok. }
  assert (K2 : area_check area fit_ellipse crit c = Ok true) by (unfold area_check; rewrite Ef; cbn [bind fst]; rewrite E2; reflexivity).
  cbn [fst snd].
  (* eccentricity *)
  destruct (ngt (eccentricity a b) _) eqn:E3.
  { split; [|disc1]. apply (Hch "eccentricity"%string (firstn 2 (checks c)) (tl (tl (tl (checks c))))).
    - unfold S_Detect.checks, eccentricity_check. rewrite Ef. cbn [bind fst snd]. rewrite E3. reflexivity.
    - allok. }
  assert (K3 : eccentricity_check fit_ellipse eccentricity crit c = Ok true) by (unfold eccentricity_check; rewrite Ef; cbn [bind fst snd]; rewrite E3; reflexivity).
  (* similarity *)
  destruct (similarity c el) as [err|x] eqn:Esim; cbn [bind].
  2:{ apply (Hra "similarity"%string x (firstn 3 (checks c)) (tl (tl (tl (tl (checks c)))))).
      - unfold S_Detect.checks, similarity_check. rewrite Ef. cbn [bind fst]. rewrite Esim. reflexivity.
      - allok. }
  destruct (ngt err _) eqn:E4.
  { split; [|disc1]. apply (Hch "similarity"%string (firstn 3 (checks c)) (tl (tl (tl (tl (checks c)))))).
    - unfold S_Detect.checks, similarity_check. rewrite Ef. cbn [bind fst]. rewrite Esim. cbn [bind]. rewrite E4. reflexivity.
    - allok. }
  assert (K4 : similarity_check fit_ellipse similarity crit c = Ok true)
    by (unfold similarity_check; rewrite Ef; cbn [bind fst]; rewrite Esim; cbn [bind]; rewrite E4; reflexivity).
  (* island *)
  destruct (data_in_contour c) as [[sgn [[v y] x]]|x] eqn:Ed; cbn [bind].
  2:{ apply (Hra "eddy_is_island"%string x (firstn 4 (checks c)) (skipn 5 (checks c))).
      - unfold S_Detect.checks, island_check. rewrite Ed. reflexivity.
      - allok. }
  cbn [fst snd]. destruct (neqb v (Num 0)) eqn:E5.
  { split; [|disc2]. apply (Hch "eddy_is_island"%string (firstn 4 (checks c)) (skipn 5 (checks c))).
    - unfold S_Detect.checks, island_check. rewrite Ed. cbn [bind fst snd]. rewrite E5. reflexivity.
    - allok. }
  assert (K5 : island_check data_in_contour c = Ok true) by (unfold island_check; rewrite Ed; cbn [bind fst snd]; rewrite E5; reflexivity).
  destruct skip eqn:Esk.
  { split.
    - split; [exact Hnd|]. unfold S_Detect.checks. allok.
    - exists el, a, b, th, err, sgn, v, y, x, (scalar VNone), [NaN], (Num 0). rewrite Ef, Esim, Ed, Esk. refine (conj eq_refl (conj eq_refl (conj eq_refl (conj _ _)))); [auto|fin Hcc]. }
  (* gaussian *)
  destruct (gauss_fit c) as [[g gc]|x'] eqn:Eg; cbn [bind].
  2:{ apply (Hra "gaussian_fit_failed"%string x' (firstn 5 (checks c)) (skipn 6 (checks c))).
      - unfold S_Detect.checks, gauss_found_check. rewrite Esk, Eg. reflexivity.
      - unfold S_Detect.checks. rewrite Esk. allok. }
  destruct gc as [|g0 gc'] eqn:Egc.
  { split; [|disc2]. apply (Hch "gaussian_fit_failed"%string (firstn 5 (checks c)) (skipn 6 (checks c))).
    - unfold S_Detect.checks, gauss_found_check. rewrite Esk, Eg. reflexivity.
    - unfold S_Detect.checks. rewrite Esk. allok. }
  rewrite <- Egc in *.
  assert (K6 : gauss_found_check gauss_fit c = Ok true) by (unfold gauss_found_check; rewrite Eg, Egc; reflexivity).
  destruct (similarity c (List.concat gc)) as [gs|x'] eqn:Egs; cbn [bind].
  2:{ apply (Hra "gaussian_check"%string x' (firstn 6 (checks c)) []).
      - unfold S_Detect.checks, gauss_check. rewrite Esk, Eg. cbn [bind snd]. rewrite Egs. reflexivity.
      - unfold S_Detect.checks. rewrite Esk. allok. }
  destruct (nlt gs _) eqn:E7.
  { split; [|disc2]. apply (Hch "gaussian_check"%string (firstn 6 (checks c)) []).
    - unfold S_Detect.checks, gauss_check. rewrite Esk, Eg. cbn [bind snd]. rewrite Egs. cbn [bind]. rewrite E7. reflexivity.
    - unfold S_Detect.checks. rewrite Esk. allok. }
  assert (K7 : gauss_check similarity gauss_fit crit c = Ok true)
    by (unfold gauss_check; rewrite Eg; cbn [bind snd]; rewrite Egs; cbn [bind]; rewrite E7; reflexivity).
  split.
  - split; [exact Hnd|]. unfold S_Detect.checks. allok.
  - exists el, a, b, th, err, sgn, v, y, x, (vector g), g, gs. rewrite Ef, Esim, Ed, Esk. refine (conj eq_refl (conj eq_refl (conj eq_refl (conj _ _)))); [eauto|fin Hcc].
Qed.
End Level.

(** Properties C47-C50: filters. *)
From Coq Require Import Reals Lra Lia.
From Verif Require Import M_Base M_Gauss M_Filter S_Filter L_Filter.
Open Scope string_scope.
Open Scope R_scope.

Definition setup_of (type mode : string) (kernel : Z) : setup := mkSetup type mode kernel.

(** C47 holds when no filter is applied and when both are asked for (the latter leaves no field at all). *)
Theorem C47_unfiltered_partial filter s d : filter <> "space" -> filter <> "time" -> filter <> "both" ->
  exists d', filter_data true filter s d = Ok (Some d') /\ same_field (filled d) d'.
Proof.
  intros H1 H2 H3. unfold filter_data. rewrite (proj2 (String.eqb_neq _ _) H3), (proj2 (String.eqb_neq _ _) H1), (proj2 (String.eqb_neq _ _) H2). eexists. split; [reflexivity|]. split; [reflexivity|]. split; [reflexivity|]. intros i j _. cbn. destruct (f_at d i j); reflexivity.
Qed.
Print Assumptions C47_unfiltered_partial.
(** With the default filter, the option changes nothing: *)
Theorem C47_space_ignores_option s d : filter_data true "space" s d = filter_data false "space" s d.
Proof. reflexivity. Qed.
Print Assumptions C47_space_ignores_option.
(** One row, one value missing: the meridional filter does not return what it returns for the filled data. *)
Definition gap : field := mkField 2 2 (fun i j => if (Nat.eqb i 0 && Nat.eqb j 1)%bool then None else Some 2).
Theorem C47_refuted : exists s d d' d'', filter_data true "space" s d = Ok (Some d') /\ space_filter s (filled d) = Ok d'' /\ ~ same_missing d'' d' /\ f_at d' 0 0 = Some 0 /\ f_at d'' 0 0 = Some 1.
Proof.
  exists (setup_of "meridional" "uniform" 10), gap. eexists. eexists. split; [reflexivity|]. split; [reflexivity|]. split; [|split].
  - intros [_ [_ H]]. specialize (H 0%nat 1%nat (conj (le_S _ _ (le_n _)) (le_n _))). cbn in H. discriminate (proj1 H eq_refl).
  - cbn. f_equal. lra.
  - cbn. f_equal. lra.
Qed.
Print Assumptions C47_refuted.
(** The time filter returns no field, whatever the options. *)
Theorem C47_time_no_field b s d : filter_data b "time" s d = Ok None /\ (forall r, filter_data b "both" s d = Ok r -> r = None).
Proof. split; [reflexivity|]. intros r H. unfold filter_data in H. cbn [String.eqb Ascii.eqb Bool.eqb] in H. destruct (space_filter s (treat_nan b d)); cbn in H; unfold time_filter in H; congruence. Qed.
Print Assumptions C47_time_no_field.

(** C48: an unknown filter name is accepted and the data passed on unfiltered. *)
Theorem C48_refuted b filter s d : filter <> "space" -> filter <> "time" -> filter <> "both" ->
  exists d', filter_data b filter s d = Ok (Some d') /\ same_field (if b then filled d else d) d'.
Proof.
  intros H1 H2 H3. unfold filter_data. rewrite (proj2 (String.eqb_neq _ _) H3), (proj2 (String.eqb_neq _ _) H1), (proj2 (String.eqb_neq _ _) H2). eexists. split; [reflexivity|]. destruct b; (split; [reflexivity|split; [reflexivity|intros i j _; cbn; destruct (f_at d i j); reflexivity]]).
Qed.
Print Assumptions C48_refuted.
Theorem C48_mode_refuted b mode kernel d : mode <> "uniform" -> mode <> "gaussian" -> filter_data b "space" (mkSetup "convolution" mode kernel) d = Ok (Some d).
Proof.
  intros H1 H2. unfold filter_data. cbn [String.eqb Ascii.eqb Bool.eqb]. unfold space_filter. cbn [s_type s_mode s_kernel]. cbn [String.eqb Ascii.eqb Bool.eqb]. rewrite (proj2 (String.eqb_neq _ _) H1), (proj2 (String.eqb_neq _ _) H2). reflexivity.
Qed.
Print Assumptions C48_mode_refuted.
(** What is rejected, and with which exception: unknown types, the gaussian mode and negative sizes; nothing else. *)
Theorem C48_rejected_partial b filter s d e : filter = "space" \/ filter = "both" ->
  (filter_data b filter s d = Err e <->
   (s_type s <> "convolution" /\ s_type s <> "meridional" /\ s_type s <> "zonal" /\ e = ValueError) \/
   (s_type s = "convolution" /\ s_mode s = "gaussian" /\ e = WarningError) \/
   (s_type s = "convolution" /\ s_mode s = "uniform" /\ (s_kernel s < 0)%Z /\ e = ValueError)).
Proof.
  intro F.
  assert (K : forall x, uniform (s_kernel s) x = Err e <-> (s_kernel s < 0)%Z /\ e = ValueError).
  { intro x. unfold uniform. destruct (Z.ltb_spec (side (s_kernel s)) 0) as [N|N].
    - split; [intro H; injection H as <-; split; [|reflexivity]|intros [_ ->]; reflexivity]. unfold side in N. destruct (Z.even (s_kernel s)); lia.
    - split; [intro H; discriminate|]. intros [H _]. exfalso. unfold side in N. destruct (Z.even (s_kernel s)) eqn:E; [|lia]. assert (s_kernel s = -1)%Z as Q by lia. rewrite Q in E. discriminate. }
  assert (S : forall x, space_filter s x = Err e <-> (s_type s <> "convolution" /\ s_type s <> "meridional" /\ s_type s <> "zonal" /\ e = ValueError) \/
   (s_type s = "convolution" /\ s_mode s = "gaussian" /\ e = WarningError) \/ (s_type s = "convolution" /\ s_mode s = "uniform" /\ (s_kernel s < 0)%Z /\ e = ValueError)).
  { intro x. unfold space_filter. destruct (String.eqb_spec (s_type s) "convolution") as [C|C].
    - rewrite C. destruct (String.eqb_spec (s_mode s) "uniform") as [U|U].
      + rewrite U. cbn [String.eqb Ascii.eqb Bool.eqb]. rewrite <- (K x). destruct (uniform (s_kernel s) x) as [y|e']; cbn.
        * split; [intro H; discriminate|]. intros [[H _]|[[_ [H _]]|[_ [_ H]]]]; [congruence|discriminate|discriminate].
        * split; [intro H; right; right; auto|]. intros [[H _]|[[_ [H _]]|[_ [_ H]]]]; [congruence|discriminate|exact H].
      + cbn. destruct (String.eqb_spec (s_mode s) "gaussian") as [G|G].
        * split; [intro H; injection H as <-; right; left; auto|]. intros [[H _]|[[_ [_ ->]]|[_ [H _]]]]; [congruence|reflexivity|congruence].
        * split; [intro H; discriminate|]. intros [[H _]|[[_ [H _]]|[_ [H _]]]]; congruence.
    - destruct (String.eqb_spec (s_type s) "meridional") as [M|M]; [|destruct (String.eqb_spec (s_type s) "zonal") as [O|O]].
      + split; [intro H; discriminate|]. intros [[_ [H _]]|[[H _]|[H _]]]; congruence.
      + split; [intro H; discriminate|]. intros [[_ [_ [H _]]]|[[H _]|[H _]]]; congruence.
      + split; [intro H; injection H as <-; left; auto|]. intros [[_ [_ [_ ->]]]|[[H _]|[H _]]]; [reflexivity|congruence|congruence]. }
  destruct F as [-> | ->]; unfold filter_data; cbn [String.eqb Ascii.eqb Bool.eqb].
  - rewrite <- (S d). destruct (space_filter s d); cbn; split; intro H; congruence.
  - rewrite <- (S (treat_nan b d)). destruct (space_filter s (treat_nan b d)); cbn; split; intro H; congruence.
Qed.
Print Assumptions C48_rejected_partial.

(** C49: the field that the meridional filter gives, as seen through the API. *)
Theorem C49_meridional b d mode kernel : exists d', filter_data b "space" (mkSetup "meridional" mode kernel) d = Ok (Some d') /\
  same_missing d d' /\
  (forall i, (i < f_ny d)%nat -> total (row d' i) = 0) /\
  (forall i, exists m, forall j, cell d i j -> forall x, f_at d i j = Some x -> f_at d' i j = Some (x - m)) /\
  (exists d'', filter_data b "space" (mkSetup "meridional" mode kernel) d' = Ok (Some d'') /\ same_field d' d'').
Proof.
  exists (meridional d). split; [reflexivity|]. split; [apply meridional_missing|]. split; [intros i _; rewrite row_meridional; apply centred_total|]. split.
  - intro i. destruct (nanmean (row d i)) as [m|] eqn:E.
    + exists m. intros j _ x Hx. cbn [meridional map_field f_at]. rewrite E, Hx. reflexivity.
    + exists 0. intros j [_ Hj] x Hx. pose proof (proj1 (nanmean_none _) E _ (in_row d i j Hj)). congruence.
  - exists (meridional (meridional d)). split; [reflexivity|apply meridional_twice].
Qed.
Print Assumptions C49_meridional.
Theorem C49_zonal b d mode kernel : exists d', filter_data b "space" (mkSetup "zonal" mode kernel) d = Ok (Some d') /\
  same_missing d d' /\
  (forall j, (j < f_nx d)%nat -> total (column d' j) = 0) /\
  (forall j, exists m, forall i, cell d i j -> forall x, f_at d i j = Some x -> f_at d' i j = Some (x - m)) /\
  (exists d'', filter_data b "space" (mkSetup "zonal" mode kernel) d' = Ok (Some d'') /\ same_field d' d'').
Proof.
  exists (zonal d). split; [reflexivity|]. split; [apply zonal_missing|]. split; [intros j _; rewrite column_zonal; apply centred_total|]. split.
  - intro j. destruct (nanmean (column d j)) as [m|] eqn:E.
    + exists m. intros i _ x Hx. cbn [zonal map_field f_at]. rewrite E, Hx. reflexivity.
    + exists 0. intros i [Hi _] x Hx. pose proof (proj1 (nanmean_none _) E _ (in_column d i j Hi)). congruence.
  - exists (zonal (zonal d)). split; [reflexivity|apply zonal_twice].
Qed.
Print Assumptions C49_zonal.
Theorem C49_linear type b d d' u v mode kernel : type = "meridional" \/ type = "zonal" -> same_missing d d' ->
  exists e e' f, filter_data b "space" (mkSetup type mode kernel) d = Ok (Some e) /\ filter_data b "space" (mkSetup type mode kernel) d' = Ok (Some e') /\
    filter_data b "space" (mkSetup type mode kernel) (combination u v d d') = Ok (Some f) /\ same_field (combination u v e e') f.
Proof.
  intros [-> | ->] M.
  - exists (meridional d), (meridional d'), (meridional (combination u v d d')). split; [reflexivity|]. split; [reflexivity|]. split; [reflexivity|apply meridional_linear, M].
  - exists (zonal d), (zonal d'), (zonal (combination u v d d')). split; [reflexivity|]. split; [reflexivity|]. split; [reflexivity|apply zonal_linear, M].
Qed.
Print Assumptions C49_linear.

(** C50: the window has side 2 h + 1, the least odd number not below the kernel; the filter subtracts the mean over it. *)
Definition half_side (kernel h : Z) : Prop := (0 <= h)%Z /\ (kernel <= 2 * h + 1 <= kernel + 1)%Z.
Definition uniform_setup (kernel : Z) : setup := mkSetup "convolution" "uniform" kernel.
Lemma half_unique kernel h : (0 <= kernel)%Z -> half_side kernel h -> h = (side kernel / 2)%Z.
Proof. intros K [H1 H2]. destruct (side_odd kernel K) as [S1 [S2 S3]]. lia. Qed.
Lemma uniform_api b kernel d : (0 <= kernel)%Z -> exists d', filter_data b "space" (uniform_setup kernel) d = Ok (Some d') /\ f_ny d' = f_ny d /\ f_nx d' = f_nx d /\
  forall i j, f_at d' i j = osub (f_at d i j) (smoothed (Z.to_nat (side kernel / 2)) d i j).
Proof. intro K. destruct (uniform_ok kernel d K) as [d' [E H]]. exists d'. split; [|exact H]. unfold filter_data, uniform_setup, space_filter. cbn [String.eqb Ascii.eqb Bool.eqb s_type s_mode s_kernel]. rewrite E. reflexivity. Qed.
Lemma uniform_at b kernel d d' h : (0 <= kernel)%Z -> half_side kernel (Z.of_nat h) -> filter_data b "space" (uniform_setup kernel) d = Ok (Some d') ->
  f_ny d' = f_ny d /\ f_nx d' = f_nx d /\ forall i j, f_at d' i j = osub (f_at d i j) (smoothed h d i j).
Proof. intros K S E. destruct (uniform_api b kernel d K) as [e [E' H]]. assert (d' = e) as -> by congruence. apply half_unique in S; [|exact K]. rewrite <- S, Nat2Z.id in H. exact H. Qed.

Theorem C50_succeeds b kernel d : (0 <= kernel)%Z <-> exists d', filter_data b "space" (uniform_setup kernel) d = Ok (Some d') /\ same_missing d d'.
Proof.
  split.
  - intro K. destruct (uniform_api b kernel d K) as [d' [E [Y [X H]]]]. exists d'. split; [exact E|]. split; [exact Y|]. split; [exact X|]. intros i j C. rewrite H. apply osub_none. apply smoothed_some. exact C.
  - intros [d' [E _]]. destruct (Z_lt_le_dec kernel 0) as [N|N]; [|exact N]. exfalso.
    assert (filter_data b "space" (uniform_setup kernel) d = Err ValueError) by (apply C48_rejected_partial; [left; reflexivity|]; right; right; auto). congruence.
Qed.
Print Assumptions C50_succeeds.
Theorem C50_window kernel : (0 <= kernel)%Z -> exists h, half_side kernel (Z.of_nat h) /\ (2 * Z.of_nat h + 1 = if Z.even kernel then kernel + 1 else kernel)%Z.
Proof.
  intro K. destruct (side_odd kernel K) as [S1 [S2 S3]]. exists (Z.to_nat (side kernel / 2)). unfold half_side. rewrite Z2Nat.id by exact S3. split; [lia|]. rewrite <- S1. reflexivity.
Qed.
Print Assumptions C50_window.
Theorem C50_constant b kernel h d d' c i j : (0 <= kernel)%Z -> half_side kernel (Z.of_nat h) -> filter_data b "space" (uniform_setup kernel) d = Ok (Some d') ->
  (forall i' j', cell d i' j' -> f_at d i' j' = Some c) -> cell d i j -> fits h d i j -> f_at d' i j = Some 0.
Proof.
  intros K S E H C F. destruct (uniform_at b kernel d d' h K S E) as [_ [_ A]]. rewrite A, (H i j C), (smoothed_const h d i j c C H F). cbn [osub]. f_equal. ring.
Qed.
Print Assumptions C50_constant.
(** At the border the missing part of the window counts as zero. *)
Theorem C50_border b kernel h d d' c i j : (0 <= kernel)%Z -> half_side kernel (Z.of_nat h) -> filter_data b "space" (uniform_setup kernel) d = Ok (Some d') ->
  (forall i' j', cell d i' j' -> f_at d i' j' = Some c) -> cell d i j -> f_at d' i j = Some (c * (1 - INR (inside h d i j) / INR ((2 * h + 1) * (2 * h + 1)))).
Proof.
  intros K S E H C. destruct (uniform_at b kernel d d' h K S E) as [_ [_ A]]. rewrite A, (H i j C), (smoothed_border h d i j c C H). cbn [osub]. f_equal. ring.
Qed.
Print Assumptions C50_border.
Theorem C50_linear b kernel d d' u v : (0 <= kernel)%Z -> same_missing d d' ->
  exists e e' f, filter_data b "space" (uniform_setup kernel) d = Ok (Some e) /\ filter_data b "space" (uniform_setup kernel) d' = Ok (Some e') /\
    filter_data b "space" (uniform_setup kernel) (combination u v d d') = Ok (Some f) /\ same_field (combination u v e e') f.
Proof.
  intros K M. destruct (uniform_api b kernel d K) as [e [E [Ey [Ex Ea]]]], (uniform_api b kernel d' K) as [e' [E' [Ey' [Ex' Ea']]]], (uniform_api b kernel (combination u v d d') K) as [f [F [Fy [Fx Fa]]]].
  exists e, e', f. split; [exact E|]. split; [exact E'|]. split; [exact F|]. split; [rewrite Fy; cbn [combination f_ny]; congruence|]. split; [rewrite Fx; cbn [combination f_nx]; congruence|].
  intros i j _. rewrite Fa, (smoothed_linear u v _ d d' i j M). cbn [combination f_at]. rewrite Ea, Ea', comb_sub. reflexivity.
Qed.
Print Assumptions C50_linear.
(** The result at a cell depends only on the window around it, at the same place in the window. *)
Theorem C50_shift b kernel h d d' e e' i j i' j' : (0 <= kernel)%Z -> half_side kernel (Z.of_nat h) ->
  filter_data b "space" (uniform_setup kernel) d = Ok (Some e) -> filter_data b "space" (uniform_setup kernel) d' = Ok (Some e') ->
  fits h d i j -> fits h d' i' j' ->
  (forall di dj, (di <= 2 * h)%nat -> (dj <= 2 * h)%nat -> f_at d' (i' - h + di) (j' - h + dj) = f_at d (i - h + di) (j - h + dj)) ->
  f_at e' i' j' = f_at e i j.
Proof.
  intros K S E E' F F' H. destruct (uniform_at b kernel d e h K S E) as [_ [_ A]], (uniform_at b kernel d' e' h K S E') as [_ [_ A']]. rewrite A, A', (smoothed_shift h d d' i j i' j' F F' H). f_equal.
  destruct F as [F1 [_ [F3 _]]], F' as [F1' [_ [F3' _]]]. assert (H0 := H h h ltac:(lia) ltac:(lia)). rewrite !Nat.sub_add in H0 by assumption. exact H0.
Qed.
Print Assumptions C50_shift.
(** A single cell different from 0: its value is spread evenly, with the opposite sign, over the cells less than half a side away. With linearity this fixes
    the result on every field without missing values. *)
Theorem C50_spike b kernel h d d' i0 j0 x i j : (0 <= kernel)%Z -> half_side kernel (Z.of_nat h) -> filter_data b "space" (uniform_setup kernel) d = Ok (Some d') ->
  cell d i0 j0 -> cell d i j -> (forall i' j', cell d i' j' -> f_at d i' j' = Some (if (Nat.eqb i' i0 && Nat.eqb j' j0)%bool then x else 0)) ->
  f_at d' i j = Some ((if (Nat.eqb i i0 && Nat.eqb j j0)%bool then x else 0) -
    (if (Nat.leb i (i0 + h) && Nat.leb i0 (i + h) && Nat.leb j (j0 + h) && Nat.leb j0 (j + h))%bool then x / INR ((2 * h + 1) * (2 * h + 1)) else 0)).
Proof.
  intros K S E C0 C H. destruct (uniform_at b kernel d d' h K S E) as [_ [_ A]]. rewrite A, (H i j C), (smoothed_spike h d i0 j0 x i j C0 C H). reflexivity.
Qed.
Print Assumptions C50_spike.

(** Three cells a side, kernel 2: the window has side 3 and fits at the centre only. *)
Definition ones : field := mkField 3 3 (fun _ _ => Some 1).
Example C50_example : half_side 2 (Z.of_nat 1) /\ fits 1 ones 1 1 /\ cell ones 1 1 /\ inside 1 ones 0 0 = 4%nat /\ inside 1 ones 1 1 = 9%nat /\ exists d', filter_data false "space" (uniform_setup 2) ones = Ok (Some d') /\ f_at d' 1 1 = Some 0 /\ f_at d' 0 0 = Some (5 / 9).
Proof.
  assert (S : half_side 2 (Z.of_nat 1)) by (unfold half_side; lia). assert (F : fits 1 ones 1 1) by (unfold fits; cbn; lia). assert (C : cell ones 1 1) by (split; cbn; lia). assert (C0 : cell ones 0 0) by (split; cbn; lia).
  split; [exact S|]. split; [exact F|]. split; [exact C|]. split; [reflexivity|]. split; [reflexivity|]. destruct (proj1 (C50_succeeds false 2 ones) ltac:(lia)) as [d' [E _]]. exists d'. split; [exact E|]. split.
  - apply (C50_constant false 2 1 ones d' 1 1 1); auto; lia.
  - rewrite (C50_border false 2 1 ones d' 1 0 0 ltac:(lia) S E (fun _ _ _ => eq_refl) C0). f_equal. cbn. lra.
Qed.
Example C49_example : same_missing gap (combination 2 3 gap gap) /\ total (row gap 0) = 2.
Proof. split; [|cbn; lra]. split; [reflexivity|]. split; [reflexivity|]. intros i j _. cbn. destruct (Nat.eqb i 0 && Nat.eqb j 1)%bool; split; intro H; discriminate || reflexivity. Qed.
Example C48_example : "spatial" <> "space" /\ "spatial" <> "time" /\ "spatial" <> "both".
Proof. repeat split; discriminate. Qed.

(** C137-C138: the unit and the zero of the field *)
From Coq Require Import Lia Lqa.
From Verif Require Import M_Base M_Tables M_Area M_Eddy M_Detect M_Cntr M_Extract M_Window M_Pipeline S_Tracking S_Levels S_Detect S_Pipeline S_Units L_Detect L_Detect3 L_Pipeline L_Columns L_Units L_Witness P_Detect P_Pipeline P_Process.
Open Scope Z_scope.

(** *** C137 *)
Lemma convert_order k : (0 < k)%Q -> forall a b, (Qred (k * a) <= Qred (k * b) <-> a <= b)%Q.
Proof. intros Hk a b. rewrite !Qred_correct. apply Qmult_le_l, Hk. Qed.
Lemma convert_zero k a : (0 < k)%Q -> neqb (convert k a) (Num 0) = neqb a (Num 0).
Proof.
  intro Hk. destruct a as [|a]; [reflexivity|]. unfold neqb, convert. apply Qeq_bool_ext. rewrite Qred_correct. split; intro H; [|rewrite H; ring].
  destruct (Qmult_integral _ _ H) as [E|E]; [rewrite E in Hk; lra|exact E].
Qed.
Lemma sign_ext a b : (a <= 0 <-> b <= 0)%Q -> (0 <= a <-> 0 <= b)%Q -> nsign (Num a) = nsign (Num b).
Proof. intros H1 H2. cbn. rewrite (Qle_bool_ext a 0 b 0 H1), (Qle_bool_ext 0 a 0 b H2). reflexivity. Qed.
Lemma sum_convert k l : forall a b, (b == k * a)%Q -> (fold_left Qplus (map (fun q => Qred (k * q)) l) b == k * fold_left Qplus l a)%Q.
Proof. induction l as [|q l IH]; intros a b H; cbn [map fold_left]; [exact H|]. apply IH. rewrite Qred_correct, H. ring. Qed.
Lemma length_positive {A} (x : A) l : (0 < / inject_Z (Z.of_nat (length (x :: l))))%Q.
Proof. apply Qinv_lt_0_compat. change 0%Q with (inject_Z 0). rewrite <- Zlt_Qlt. cbn [length]. lia. Qed.
Lemma convert_sign k l : (0 < k)%Q -> nsign (nnanmean (map (convert k) l)) = nsign (nnanmean l).
Proof.
  intro Hk. rewrite !nnanmean_centre. change (convert k) with (lift (fun q => Qred (k * q))). rewrite valid_u. generalize (valid l) as v. intros [|q v]; [reflexivity|].
  pose proof (length_positive q v) as HL. unfold Qmean. set (L := inject_Z (Z.of_nat (length (q :: v)))) in *. set (S := fold_left Qplus (q :: v) 0%Q).
  replace (map (fun q0 => Qred (k * q0)) (q :: v)) with (Qred (k * q) :: map (fun q0 => Qred (k * q0)) v) by reflexivity. cbv iota beta.
  change (Qred (k * q) :: map (fun q0 => Qred (k * q0)) v) with (map (fun q0 => Qred (k * q0)) (q :: v)). rewrite map_length. fold L.
  assert (HS : (fold_left Qplus (map (fun q0 => Qred (k * q0)) (q :: v)) 0 == k * S)%Q) by (apply sum_convert; ring).
  assert (G : (fold_left Qplus (map (fun q0 => Qred (k * q0)) (q :: v)) 0 / L == k * (S / L))%Q) by (rewrite HS; unfold Qdiv; ring).
  apply sign_ext; rewrite G; (split; intro H; [|]).
  - destruct (Qlt_le_dec 0 (S / L)) as [W|W]; [|exact W]. assert (0 < k * (S / L))%Q by (apply Qmult_lt_0_compat; assumption). lra.
  - setoid_replace 0%Q with (k * 0)%Q by ring. apply Qmult_le_l; assumption.
  - destruct (Qlt_le_dec (S / L) 0) as [W|W]; [|exact W]. assert (k * (S / L) < k * 0)%Q by (apply Qmult_lt_l; assumption). lra.
  - setoid_replace 0%Q with (k * 0)%Q by ring. apply Qmult_le_l; assumption.
Qed.
Theorem C137_unit_of_the_field : forall k o t0 tf levels nt online st,
  (0 < k)%Q -> exact_for (convert k) (t_flops o) -> filter_for (convert k) o -> fit_for (convert k) o -> five_fitted o -> process st ->
  fst (tracking (tracker_with (convert k) o) t0 tf (Some (map (convert k) levels)) nt online st) = outcome_with (convert k) (fst (tracking o t0 tf (Some levels) nt online st)).
Proof.
  intros k o t0 tf levels nt online st Hk HF Hf Hg H5 Hp.
  apply (tracking_u (fun q => Qred (k * q)) (convert_order k Hk) o HF Hg H5 Hf t0 tf levels nt online st Hp).
  - intros l _. apply (convert_zero k l Hk).
  - intros t f _ _ c. apply data_u; [apply (convert_order k Hk)|]. intros l _. split; [apply (convert_sign k l Hk)|]. intros x _. apply (convert_zero k x Hk).
Qed.
Print Assumptions C137_unit_of_the_field.

(** The hypotheses are met: exact arithmetic, no filter; fields in metres and in centimetres, and the other way round *)
Lemma ex_exact k : (0 < k)%Q -> exact_for (convert k) ex_flops.
Proof.
  intro Hk. assert (N : ~ (k == 0)%Q) by (intro E; rewrite E in Hk; discriminate).
  split; intros; unfold ex_flops; cbn [f_add f_sub f_div f_cst]; unfold rlift2, reduced, lift2, convert; try (destruct l as [|l]); try (destruct a as [|a]); try (destruct b as [|b]); try (destruct c as [|c]); try (destruct d as [|d]); try reflexivity; f_equal; apply Qred_complete; rewrite ?Qred_correct.
  - field.
  - destruct (Qeq_dec (b - a) 0) as [E|E].
    + unfold Qdiv. setoid_replace (k * b - k * a)%Q with (k * (b - a))%Q by ring. rewrite E. setoid_replace (k * 0)%Q with 0%Q by ring. change (/ 0)%Q with 0%Q. ring.
    + field. split; [intro W; apply E; rewrite <- W; ring|]. intro W. apply E. assert (W' : (k * (b - a) == 0)%Q) by (rewrite <- W; ring). destruct (Qmult_integral _ _ W'); [contradiction|assumption].
Qed.
Definition skipping (o : tracker) : tracker :=
  mkTracker (t_data o) (t_X o) (t_Y o) (t_filter o) (t_flops o) (t_rossby o) (t_fit_ellipse o) (t_eccentricity o) (t_similarity o) (t_surface o) (t_tree o) (t_query o)
    (t_keep o) (t_garbage o) (t_criteria o) true (t_out_format o).
Example C137_case : forall k, (0 < k)%Q ->
  let o := skipping (ex_tracker [spots [(3, 3)]; spots [(3, 4); (8, 8)]]) in
  exact_for (convert k) (t_flops o) /\ filter_for (convert k) o /\ fit_for (convert k) o /\ five_fitted o /\ process initial_state /\
  exists R, snd (fst (tracking o 0 (Some 2) (Some ex_levels) 1 true initial_state)) = Ok R /\ rows R <> [].
Proof.
  intros k Hk. cbv zeta. split; [apply ex_exact, Hk|]. split; [intro g; reflexivity|]. split; [left; reflexivity|]. split; [exact (ex_five _)|]. split; [constructor|].
  eexists. split; [vm_compute; reflexivity|discriminate].
Qed.

(** *** C138 *)
Lemma raise_order c : forall a b, (Qred (a + c) <= Qred (b + c) <-> a <= b)%Q.
Proof. intros a b. rewrite !Qred_correct. split; intro; lra. Qed.
Lemma mean_positive l : (forall x, In x l -> (0 < x)%Q) -> l <> [] -> nsign (Qmean l) = Num 1.
Proof.
  intros H N. destruct l as [|q v]; [congruence|]. pose proof (length_positive q v) as HL. unfold Qmean.
  assert (S : forall v a, (0 <= a)%Q -> (forall x, In x v -> (0 < x)%Q) -> (a <= fold_left Qplus v a)%Q).
  { clear. induction v as [|q v IH]; intros a A H; cbn [fold_left]; [lra|]. assert (0 < q)%Q by (apply H; left; reflexivity). apply Qle_trans with (a + q)%Q; [lra|]. apply IH; [lra|]. intros; apply H; right; assumption. }
  assert (P : (0 < fold_left Qplus (q :: v) 0)%Q).
  { cbn [fold_left]. assert (0 < q)%Q by (apply H; left; reflexivity). assert (0 + q <= fold_left Qplus v (0 + q))%Q by (apply S; [lra|intros; apply H; right; assumption]). lra. }
  set (L := inject_Z (Z.of_nat (length (q :: v)))) in *. set (T := fold_left Qplus (q :: v) 0%Q) in *. assert (W : (0 < T / L)%Q) by (unfold Qdiv; apply Qmult_lt_0_compat; assumption).
  unfold nsign. destruct (Qle_bool (T / L) 0) eqn:E; [|reflexivity]. apply Qle_bool_iff in E. lra.
Qed.
Lemma mean_negative l : (forall x, In x l -> (x < 0)%Q) -> l <> [] -> nsign (Qmean l) = Num (-1).
Proof.
  intros H N. destruct l as [|q v]; [congruence|]. pose proof (length_positive q v) as HL. unfold Qmean.
  assert (S : forall v a, (a <= 0)%Q -> (forall x, In x v -> (x < 0)%Q) -> (fold_left Qplus v a <= a)%Q).
  { clear. induction v as [|q v IH]; intros a A H; cbn [fold_left]; [lra|]. assert (q < 0)%Q by (apply H; left; reflexivity). apply Qle_trans with (a + q)%Q; [|lra]. apply IH; [lra|]. intros; apply H; right; assumption. }
  assert (P : (fold_left Qplus (q :: v) 0 < 0)%Q).
  { cbn [fold_left]. assert (q < 0)%Q by (apply H; left; reflexivity). assert (fold_left Qplus v (0 + q) <= 0 + q)%Q by (apply S; [lra|intros; apply H; right; assumption]). lra. }
  set (L := inject_Z (Z.of_nat (length (q :: v)))) in *. set (T := fold_left Qplus (q :: v) 0%Q) in *. assert (W : (T / L < 0)%Q).
  { unfold Qdiv. assert (0 < - T * / L)%Q by (apply Qmult_lt_0_compat; [lra|exact HL]). lra. }
  unfold nsign. destruct (Qle_bool (T / L) 0) eqn:E; [destruct (Qle_bool 0 (T / L)) eqn:E'; [apply Qle_bool_iff in E'; lra|reflexivity]|].
  rewrite <- Bool.not_true_iff_false, Qle_bool_iff in E. lra.
Qed.
Lemma same_side_keeps c f : same_side c f -> forall l, (forall x, In x l -> x = NaN \/ exists r, In r f /\ In x r) -> keeps_sign (fun q => Qred (q + c)) l.
Proof.
  intros Hs l Hl. assert (V : forall q, In (Num q) l -> exists r, In r f /\ In (Num q) r) by (intros q Hq; destruct (Hl _ Hq) as [E|E]; [discriminate|exact E]).
  assert (B : ((forall q, In (Num q) l -> 0 < q /\ 0 < Qred (q + c)) \/ (forall q, In (Num q) l -> q < 0 /\ Qred (q + c) < 0))%Q).
  { destruct Hs as [[P P']|[P P']]; [left|right]; intros q Hq; destruct (V q Hq) as (r & Hr & Hx); (split; [apply (P r q Hr Hx)|]);
      (apply (P' (map (raise_by c) r)); [apply in_map; exact Hr|apply in_map_iff; exists (Num q); split; [reflexivity|exact Hx]]). }
  assert (Vl : forall x, In x (valid l) <-> In (Num x) l).
  { clear. intro x. unfold valid. rewrite in_flat_map. split; [intros ([|q] & H & I); [destruct I|]; destruct I as [->|[]]; exact H|intro H; exists (Num x); split; [exact H|left; reflexivity]]. }
  split.
  - rewrite !nnanmean_centre, valid_u. destruct (valid l) as [|q0 v0] eqn:E; [reflexivity|]. rewrite <- E in *. assert (NE : valid l <> []) by (rewrite E; discriminate). assert (NE' : map (fun q => Qred (q + c)) (valid l) <> []) by (rewrite E; discriminate). clear E.
    destruct B as [B|B].
    + rewrite !mean_positive; [reflexivity| | | |]; try assumption; intros x Hx; [|apply in_map_iff in Hx; destruct Hx as (q & <- & Hx)]; apply Vl in Hx; apply B in Hx; apply Hx.
    + rewrite !mean_negative; [reflexivity| | | |]; try assumption; intros x Hx; [|apply in_map_iff in Hx; destruct Hx as (q & <- & Hx)]; apply Vl in Hx; apply B in Hx; apply Hx.
  - intros [|q] Hx; [reflexivity|]. unfold lift, neqb. apply Qeq_bool_ext. destruct B as [B|B]; destruct (B q Hx) as [B1 B2]; split; intro W; lra.
Qed.
(** The contour lines do not depend on the zero of the field; the eddies do not as long as all values are on one side of it and no level becomes or was zero. *)
Theorem C138_zero_of_the_field : forall c o t0 tf levels nt online st,
  exact_for (raise_by c) (t_flops o) -> filter_for (raise_by c) o -> fit_for (raise_by c) o -> five_fitted o -> process st ->
  (forall f level, contours_at (tracker_with (raise_by c) o) (Some (field_with (raise_by c) f)) (raise_by c level) = contours_at o (Some f) level) /\
  ((forall t f, In t (run_steps o t0 tf) -> field_at o t f -> same_side c f) -> (forall l, In l levels -> ~ zero l /\ ~ zero (raise_by c l)) ->
   fst (tracking (tracker_with (raise_by c) o) t0 tf (Some (map (raise_by c) levels)) nt online st) = outcome_with (raise_by c) (fst (tracking o t0 tf (Some levels) nt online st))).
Proof.
  intros c o t0 tf levels nt online st HF Hf Hg H5 Hp. split; [intros f level; apply (contours_u (fun q => Qred (q + c)) (raise_order c) o HF)|]. intros Hs Hl.
  apply (tracking_u (fun q => Qred (q + c)) (raise_order c) o HF Hg H5 Hf t0 tf levels nt online st Hp).
  - intros l Il. destruct (Hl l Il) as [Z1 Z2]. destruct l as [|q]; [reflexivity|].
    assert (A : forall a, ~ zero (Num a) -> neqb (Num a) (Num 0) = false).
    { intros a Z. unfold neqb. destruct (Qeq_bool a 0) eqn:E; [|reflexivity]. exfalso. apply Z. exists a. split; [reflexivity|]. apply Qeq_bool_iff, E. }
    rewrite (A q Z1). apply (A (Qred (q + c)) Z2).
  - intros t f Ht Hft x. apply data_u; [apply (raise_order c)|]. apply (same_side_keeps c f). apply (Hs t f Ht Hft).
Qed.
Print Assumptions C138_zero_of_the_field.
Lemma raise_exact c : exact_for (raise_by c) ex_flops.
Proof.
  split; intros; unfold ex_flops; cbn [f_add f_sub f_div f_cst]; unfold rlift2, reduced, lift2, raise_by; try (destruct l as [|l]); try (destruct a as [|a]); try (destruct b as [|b]); try (destruct c0 as [|c0]); try (destruct d as [|d]); try reflexivity; f_equal; apply Qred_complete; rewrite ?Qred_correct.
  - field.
  - setoid_replace (l + c - (a + c))%Q with (l - a)%Q by ring. setoid_replace (b + c - (a + c))%Q with (b - a)%Q by ring. reflexivity.
Qed.
(** The hypotheses are met: a hill of height 1 on a plain at 5, the plain being moved to 1 and to any other positive height *)
Definition plain (c : Q) : tracker := tracker_with (raise_by c) (skipping (ex_tracker [spots [(3, 3)]; spots [(3, 4); (8, 8)]])).
Lemma spots_entry cs r x : In r (spots cs) -> In x r -> x = Num 0 \/ x = Num 1.
Proof.
  unfold spots, tabulate. intros Hr Hx. apply in_map_iff in Hr. destruct Hr as (i & <- & _). apply in_map_iff in Hx. destruct Hx as (j & <- & _). destruct (existsb _ cs); auto.
Qed.
Lemma raised_spots a cs : (0 < a)%Q -> positive (field_with (raise_by a) (spots cs)).
Proof.
  intros Ha r q Hr Hq. unfold field_with in Hr. apply in_map_iff in Hr. destruct Hr as (r0 & <- & Hr). apply in_map_iff in Hq. destruct Hq as (x & E & Hx).
  destruct (spots_entry cs r0 x Hr Hx) as [->| ->]; unfold raise_by in E; assert (q = Qred (0 + a) \/ q = Qred (1 + a))%Q as [->| ->] by (first [left; congruence|right; congruence]); rewrite Qred_correct; lra.
Qed.
Example C138_case : forall c, (0 < 5 + c)%Q ->
  exact_for (raise_by c) (t_flops (plain 5)) /\ filter_for (raise_by c) (plain 5) /\ fit_for (raise_by c) (plain 5) /\ five_fitted (plain 5) /\ process initial_state /\
  (forall t f, In t (run_steps (plain 5) 0 (Some 2)) -> field_at (plain 5) t f -> same_side c f) /\
  (exists R, snd (fst (tracking (plain 5) 0 (Some 2) (Some [Num (11 # 2)]) 1 true initial_state)) = Ok R /\ rows R <> []) /\ ~ zero (Num (11 # 2)) /\ ~ zero (raise_by c (Num (11 # 2))).
Proof.
  intros c Hc. split; [apply raise_exact|]. split; [intro g; reflexivity|]. split; [left; reflexivity|]. split; [unfold five_fitted; exact (ex_five [])|]. split; [constructor|]. split; [|split; [|split]].
  - intros t f Ht (g & S & E). injection E as <-. left.
    assert (G : exists cs, g = field_with (raise_by 5) (spots cs)).
    { cbn in Ht. destruct Ht as [<-|[<-|[]]]; [exists [(3, 3)]|exists [(3, 4); (8, 8)]]; destruct S as [[_ S]|[S _]]; try lia; cbv in S; vm_compute; congruence. }
    destruct G as (cs & ->). split; [apply raised_spots; lra|]. intros r q Hr Hq. unfold field_with in Hr. rewrite map_map in Hr. apply in_map_iff in Hr. destruct Hr as (r0 & <- & Hr). rewrite map_map in Hq. apply in_map_iff in Hq.
    destruct Hq as (x & E & Hx). destruct (spots_entry cs r0 x Hr Hx) as [->| ->]; unfold raise_by in E; assert (q = Qred (Qred (0 + 5) + c) \/ q = Qred (Qred (1 + 5) + c))%Q as [->| ->] by (first [left; congruence|right; congruence]); rewrite !Qred_correct; lra.
  - eexists. split; [vm_compute; reflexivity|discriminate].
  - intros (q & E & Z). assert (q = 11 # 2)%Q by congruence. subst. discriminate Z.
  - intros (q & E & Z). unfold raise_by in E. assert (q = Qred ((11 # 2) + c))%Q by congruence. subst. rewrite Qred_correct in Z. lra.
Qed.
(** A level that becomes zero is not looked at. *)
Theorem C138_level_at_zero_refuted : exists c o level R, exact_for (raise_by c) (t_flops o) /\ filter_for (raise_by c) o /\ fit_for (raise_by c) o /\ five_fitted o /\
  snd (fst (tracking o 0 (Some 1) (Some [level]) 1 true initial_state)) = Ok R /\ rows R <> [] /\
  snd (fst (tracking (tracker_with (raise_by c) o) 0 (Some 1) (Some [raise_by c level]) 1 true initial_state)) = Ok empty_frame.
Proof.
  exists (-1 # 2)%Q, (skipping (ex_tracker [spots [(3, 3)]])), (Num (1 # 2)). eexists. split; [apply raise_exact|]. split; [intro g; reflexivity|]. split; [left; reflexivity|]. split; [exact (ex_five _)|].
  split; [vm_compute; reflexivity|]. split; [discriminate|]. vm_compute. reflexivity.
Qed.
Print Assumptions C138_level_at_zero_refuted.
(** A hill below zero is recorded as an eddy of negative sign, with the lowest point of its rim in place of the summit. *)
Theorem C138_zero_of_the_field_refuted : exists c o level R R', exact_for (raise_by c) (t_flops o) /\ filter_for (raise_by c) o /\ fit_for (raise_by c) o /\ five_fitted o /\
  snd (fst (tracking o 0 (Some 1) (Some [level]) 1 true initial_state)) = Ok R /\
  snd (fst (tracking (tracker_with (raise_by c) o) 0 (Some 1) (Some [raise_by c level]) 1 true initial_state)) = Ok R' /\
  (exists r, In r (rows R) /\ r_id r = 0 /\ column "eddy_sign" r = Num 1 /\ column "maxima" r = Num 1 /\ maxima_y (r_cols r) = Num 2) /\
  (exists r, In r (rows R') /\ r_id r = 0 /\ column "eddy_sign" r = Num (-1) /\ column "maxima" r = Num (-2) /\ maxima_y (r_cols r) = Num 1).
Proof.
  exists (-2)%Q, (skipping (ex_tracker [spots [(3, 3)]])), (Num (1 # 2)). eexists. eexists. split; [apply raise_exact|]. split; [intro g; reflexivity|]. split; [left; reflexivity|]. split; [exact (ex_five _)|].
  split; [vm_compute; reflexivity|]. split; [vm_compute; reflexivity|]. split; (eexists; split; [left; reflexivity|]; repeat split; reflexivity).
Qed.
Print Assumptions C138_zero_of_the_field_refuted.

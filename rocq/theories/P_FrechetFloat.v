(** C90-C93: the Frechet distance and the similarity in floating-point arithmetic: work, missing coordinates, accuracy. *)
From Coq Require Import Reals Lra Lia Psatz ZArith.
From Flocq Require Import Core.
From Verif Require Import M_Base M_Printer M_Frechet M_FrechetFloat S_Double S_Frechet S_FrechetFloat L_Printer L_Double L_Frechet L_Frechet2 L_Frechet3 L_FrechetFloat L_FrechetFloat2.
Open Scope R_scope.

(** *** the value for curves of double coordinates *)
Definition fval64 := fval norm64.
Lemma frdist64_value frames P Q P' Q' : P <> [] -> Q <> [] -> thinning 2 P Q P' Q' ->
  (((length P' + length Q' - 1 <= frames)%nat /\ exists k, frdist64 frames P Q = Ok (fval64 P' Q', k) /\
      (dof norm64 P' Q' 0 0 = Nan -> (forall n, (n < length P' -> n < length Q' -> 3 ^ n <= k)%nat)) /\
      (dof norm64 P' Q' 0 0 <> Nan -> (k + 2 * length P' + 2 * length Q' = 3 * length P' * length Q' + 2)%nat)) \/
   ((frames < length P' + length Q' - 1)%nat /\ frdist64 frames P Q = Err RecursionError)).
Proof.
  intros HP HQ T. apply thinning_thinned in T; [|lia].
  destruct (ffrdist_value norm64 norm64_sym norm64_num frames P Q HP HQ) as [p [q [T' [_ [_ H]]]]]. destruct (thinned_unique _ _ _ _ _ T _ _ T') as [-> ->]. exact H.
Qed.
Lemma first_kept {A} (P Q P' Q' : list A) : thinning 2 P Q P' Q' -> hd_error P' = hd_error P /\ hd_error Q' = hd_error Q.
Proof. intro T. apply thinning_thinned in T; [|lia]. pose proof (thinned_props _ _ _ _ _ T) as H. tauto. Qed.
Lemma dof_first P Q a b : hd_error P = Some a -> hd_error Q = Some b -> dof norm64 P Q 0 0 = norm64 a b.
Proof. destruct P, Q; try discriminate. intros H K. injection H as ->. injection K as ->. reflexivity. Qed.
Lemma hd_nonempty {A} (P : list A) a : hd_error P = Some a -> P <> []. Proof. destruct P; discriminate. Qed.
Lemma nonempty_hd {A} (P : list A) : P <> [] -> exists a, hd_error P = Some a. Proof. destruct P as [|a P]; [congruence|]. intros _. exists a. reflexivity. Qed.

(** *** C90 *)
(** The number of calls of the recursive function when the first vertices are present: less than three for every pair of vertices. *)
Theorem C90_calls_partial frames P Q a b P' Q' : hd_error P = Some a -> hd_error Q = Some b -> ~ missing a -> ~ missing b ->
  thinning 2 P Q P' Q' -> (length P' + length Q' - 1 <= frames)%nat ->
  exists v calls, frdist64 frames P Q = Ok (v, calls) /\ (calls + 2 * length P' + 2 * length Q' = 3 * length P' * length Q' + 2)%nat.
Proof.
  intros HP HQ Ma Mb T F. destruct (first_kept _ _ _ _ T) as [KP KQ]. destruct (frdist64_value frames P Q P' Q' (hd_nonempty _ _ HP) (hd_nonempty _ _ HQ) T) as [[_ [k [E [_ C]]]]|[L _]]; [|lia].
  exists (fval64 P' Q'), k. split; [exact E|]. apply C. rewrite (dof_first P' Q' a b) by congruence. apply number_not_nan, norm64_number; assumption.
Qed.
Print Assumptions C90_calls_partial.
Theorem C90_calls_300 P Q a b : hd_error P = Some a -> hd_error Q = Some b -> ~ missing a -> ~ missing b -> (Z.of_nat (length P) <= 300)%Z -> (Z.of_nat (length Q) <= 300)%Z ->
  exists v calls, frdist64 (Z.to_nat 1000) P Q = Ok (v, calls) /\ (Z.of_nat calls <= 268802)%Z.
Proof.
  intros HP HQ Ma Mb LP LQ. destruct (C90_calls_partial (Z.to_nat 1000) P Q a b P Q HP HQ Ma Mb) as [v [k [E C]]]; [apply thinning_done; left; exact LP|lia|].
  exists v, k. split; [exact E|]. assert (1 <= length P /\ 1 <= length Q)%nat as [X Y] by (destruct P, Q; try discriminate; cbn; lia). nia.
Qed.
Print Assumptions C90_calls_300.
(** When a first vertex is missing the number of calls grows by a factor of three with every vertex, and the result is NaN. *)
Theorem C90_missing_first_vertex_refuted frames P Q a b n : hd_error P = Some a -> hd_error Q = Some b -> missing a \/ missing b ->
  not_thinned P Q -> (length P + length Q - 1 <= frames)%nat -> (n < length P)%nat -> (n < length Q)%nat ->
  exists calls, frdist64 frames P Q = Ok (Nan, calls) /\ (3 ^ n <= calls)%nat.
Proof.
  intros HP HQ M N F L1 L2. destruct (frdist64_value frames P Q P Q (hd_nonempty _ _ HP) (hd_nonempty _ _ HQ) (thinning_done 2 P Q N)) as [[_ [k [E [C _]]]]|[L _]]; [|lia].
  assert (D : dof norm64 P Q 0 0 = Nan) by (rewrite (dof_first P Q a b HP HQ); apply norm64_missing, M).
  exists k. split; [|apply C; assumption]. rewrite E. unfold fval64, fval. rewrite ffr_nan by exact D. reflexivity.
Qed.
Print Assumptions C90_missing_first_vertex_refuted.
Definition hole : fpoint := (None, None).
Definition at_x (x : R) : fpoint := (Some x, Some 0).
Example C90_case : (exists v calls, frdist64 10 [at_x 0; at_x 1; at_x 2] [at_x 0; at_x 1] = Ok (v, calls) /\ calls = 10%nat) /\
  (exists calls, frdist64 (Z.to_nat 1000) (List.repeat hole 50) (List.repeat (at_x 0) 50) = Ok (Nan, calls) /\ (3 ^ 49 <= calls)%nat).
Proof.
  split.
  - destruct (C90_calls_partial 10 [at_x 0; at_x 1; at_x 2] [at_x 0; at_x 1] (at_x 0) (at_x 0) [at_x 0; at_x 1; at_x 2] [at_x 0; at_x 1]) as [v [k [E C]]]; try reflexivity.
    1,2: intros [H|H]; discriminate H. 1: apply thinning_done; left; cbn; lia. 1: cbn; lia. exists v, k. split; [exact E|]. cbn [length] in C. lia.
  - apply (C90_missing_first_vertex_refuted (Z.to_nat 1000) _ _ hole (at_x 0)); try reflexivity; [left; left; reflexivity|left; rewrite List.repeat_length; lia| | |]; rewrite ?List.repeat_length; lia.
Qed.

(** The two models of the distance agree in exact arithmetic. *)
Definition exact_norm (a b : point) : fl := Fin (dist a b).
Theorem C90_exact_arithmetic frames P Q : (exists d calls, frdist frames P Q = Ok d /\ ffrdist exact_norm frames P Q = Ok (Fin d, calls)) \/
  (exists e, frdist frames P Q = Err e /\ ffrdist exact_norm frames P Q = Err e).
Proof.
  assert (D : (P = [] \/ Q = []) \/ (P <> [] /\ Q <> [])) by (destruct P, Q; auto; right; split; discriminate).
  destruct D as [D|[HP HQ]]; [right; exists IndexError; split; [apply frdist_empty, D|apply ffrdist_empty, D]|].
  assert (B : forall a b, big (exact_norm a b)) by (intros; apply number_big; right; eexists; split; [reflexivity|apply dist_nonneg]).
  destruct (frdist_eval frames P Q HP HQ) as [p [q [T [Np [Nq E]]]]].
  destruct (ffrdist_value exact_norm (fun a b => f_equal Fin (dist_sym a b)) (fun a b => or_intror (B a b)) frames P Q HP HQ) as [p' [q' [T' [_ [_ H]]]]].
  destruct (thinned_unique _ _ _ _ _ T' _ _ T) as [-> ->]. unfold outcome in E. destruct H as [[F [k [E' _]]]|[F E']].
  - rewrite (proj2 (Nat.leb_le _ _) F) in E. left. exists (fvalue p q), k. split; [exact E|]. rewrite E'. do 2 f_equal. unfold fval, fvalue.
    assert (Z : forall i j, (i <= length p - 1)%nat -> (j <= length q - 1)%nat -> dof exact_norm p q i j = Fin (dd p q i j)).
    { intros i j Hi Hj. pose proof (len_pos p Np). pose proof (len_pos q Nq). unfold dof, dd, exact_norm. rewrite (nth_error_nth' p (0, 0)), (nth_error_nth' q (0, 0)) by lia. reflexivity. }
    rewrite (ffr_fin (dof exact_norm p q) (length p - 1) (length q - 1)); [|exists (dd p q 0 0); apply Z; lia|intros i j Hi Hj; right; exists (dd p q i j); split; [apply Z; assumption|apply dist_nonneg]|lia|lia].
    f_equal. apply fr_ext with (n := (length p - 1)%nat) (m := (length q - 1)%nat); [|lia|lia]. intros i j Hi Hj. unfold zeroed. rewrite Z by assumption. reflexivity.
  - destruct (Nat.leb_spec (length p + length q - 1) frames); [lia|]. right. exists RecursionError. split; [exact E|exact E'].
Qed.
Print Assumptions C90_exact_arithmetic.

(** *** C91 *)
(** A missing coordinate anywhere in the curves makes the similarity NaN, provided [math.dist] is NaN for such vertices. *)
Lemma farc_from_nan mdist : forall P, farc_from mdist Nan P = Nan.
Proof. induction P as [|a P IH]; [reflexivity|]. destruct P as [|b P]; [reflexivity|]. exact IH. Qed.
Lemma farc_missing mdist : (forall a b, missing a \/ missing b -> mdist a b = Nan) -> forall P acc, (exists a, In a P /\ missing a) -> (2 <= length P)%nat -> farc_from mdist acc P = Nan.
Proof.
  intro M. induction P as [|x P IH]; intros acc [a [Ha Hm]] L; [destruct Ha|]. destruct P as [|y P]; [cbn in L; lia|]. change (farc_from mdist (fadd acc (mdist x y)) (y :: P) = Nan).
  assert (FN : forall v, fadd v Nan = Nan) by (intros [| |]; reflexivity).
  destruct Ha as [->|Ha]; [rewrite M, FN by auto; apply farc_from_nan|]. destruct P as [|z P].
  - destruct Ha as [->|[]]. rewrite M, FN by auto. reflexivity.
  - apply IH; [exists a; auto|cbn; lia].
Qed.
Lemma single_r {A} (P : list A) b : not_thinned P [b]. Proof. right. cbn. lia. Qed.
Lemma single_l {A} (P : list A) b : not_thinned [b] P. Proof. left. cbn. lia. Qed.
Lemma fmul_nan_r v : fmul v Nan = Nan. Proof. destruct v; reflexivity. Qed.
Lemma fdiv_nan_r v : fdiv v Nan = Nan. Proof. destruct v; reflexivity. Qed.
Theorem C91_similarity_of_curves_with_missing_vertices mdist frames P Q s :
  (forall a b, missing a \/ missing b -> mdist a b = Nan) -> (exists a, (In a P \/ In a Q) /\ missing a) ->
  sim64 mdist frames P Q = Ok s -> s = Nan.
Proof.
  intros M [a [Ha Hm]] E. unfold sim64 in E. destruct (frdist64 frames P Q) as [[fd k]|e] eqn:F; [|discriminate]. cbn [bind] in E. injection E as <-.
  destruct (ffrdist_ok norm64 frames P Q _ F) as [HP HQ].
  assert (G : (exists a, In a P /\ missing a) \/ (exists a, In a Q /\ missing a)) by (destruct Ha; eauto).
  assert (A : farc mdist P = Nan \/ farc mdist Q = Nan \/ fd = Nan).
  { destruct (le_lt_dec 2 (length P)) as [LP|LP].
    - destruct G as [G|G]; [left; apply farc_missing; assumption|]. destruct (le_lt_dec 2 (length Q)) as [LQ|LQ]; [right; left; apply farc_missing; assumption|]. right. right.
      destruct Q as [|b [|? ?]]; [congruence| |cbn in LQ; lia]. destruct G as [b' [[<-|[]] Hb]]. destruct P as [|c P]; [congruence|].
      destruct (frdist64_value frames (c :: P) [b] _ _ HP HQ (thinning_done 2 _ _ (single_r _ _))) as [[_ [k' [E' _]]]|[_ E']]; [|congruence].
      rewrite E' in F. injection F as <- _. unfold fval64, fval. apply ffr_nan. apply norm64_missing. auto.
    - destruct P as [|c [|? ?]]; [congruence| |cbn in LP; lia]. destruct G as [[c' [[<-|[]] Hc]]|G].
      + right. right. destruct Q as [|b Q]; [congruence|].
        destruct (frdist64_value frames [c] (b :: Q) _ _ HP HQ (thinning_done 2 _ _ (single_l _ _))) as [[_ [k' [E' _]]]|[_ E']]; [|congruence].
        rewrite E' in F. injection F as <- _. unfold fval64, fval. apply ffr_nan. apply norm64_missing. auto.
      + destruct (le_lt_dec 2 (length Q)) as [LQ|LQ]; [right; left; apply farc_missing; assumption|]. right. right.
        destruct Q as [|b [|? ?]]; [congruence| |cbn in LQ; lia]. destruct G as [b' [[<-|[]] Hb]].
        destruct (frdist64_value frames [c] [b] _ _ HP HQ (thinning_done 2 _ _ (single_l _ _))) as [[_ [k' [E' _]]]|[_ E']]; [|congruence].
        rewrite E' in F. injection F as <- _. unfold fval64, fval. apply ffr_nan. apply norm64_missing. auto. }
  destruct A as [->|[->| ->]].
  - cbn [fmul fsqrt fdiv]. rewrite fdiv_nan_r. reflexivity.
  - rewrite fmul_nan_r. cbn [fsqrt fdiv]. rewrite fdiv_nan_r. reflexivity.
  - reflexivity.
Qed.
Print Assumptions C91_similarity_of_curves_with_missing_vertices.
(** The distance, however, is a number as soon as the two first vertices are present: missing vertices are ignored. *)
Lemma computed_range P Q ij x : computed P Q ij x -> (fst ij < length P)%nat /\ (snd ij < length Q)%nat /\ dof norm64 P Q (fst ij) (snd ij) = Fin x.
Proof.
  intros [a [b [A [B C]]]]. split; [apply nth_error_Some; congruence|]. split; [apply nth_error_Some; congruence|]. unfold dof. rewrite A, B. exact C.
Qed.
Lemma computed_of P Q ij x : dof norm64 P Q (fst ij) (snd ij) = Fin x -> computed P Q ij x.
Proof. unfold dof. destruct (nth_error P (fst ij)) as [a|] eqn:A; [|discriminate]. destruct (nth_error Q (snd ij)) as [b|] eqn:B; [|discriminate]. exists a, b. auto. Qed.
Lemma moderate_dof P Q i j : moderate_curve P -> moderate_curve Q -> dof norm64 P Q i j = Nan \/ exists x, dof norm64 P Q i j = Fin x /\ 0 <= x.
Proof.
  intros MP MQ. unfold dof. destruct (nth_error P i) as [a|] eqn:A; [|auto]. destruct (nth_error Q j) as [b|] eqn:B; [|auto].
  apply nth_error_In in A, B. apply MP in A. apply MQ in B. destruct (missing_dec a) as [X|X]; [left; apply norm64_missing; auto|]. destruct (missing_dec b) as [Y|Y]; [left; apply norm64_missing; auto|].
  right. destruct a as [[ax|] [ay|]]; try (elim X; unfold missing; cbn; tauto). destruct b as [[bx|] [by_|]]; try (elim Y; unfold missing; cbn; tauto).
  destruct (norm64_eps (ax, ay) (bx, by_)) as [v [E [V _]]]; [exact A|exact B|]. exists v. auto.
Qed.
Lemma moderate_thinned (P Q P' Q' : list fpoint) : thinning 2 P Q P' Q' -> moderate_curve P -> moderate_curve Q -> moderate_curve P' /\ moderate_curve Q'.
Proof. intros T MP MQ. apply thinning_thinned in T; [|lia]. pose proof (thinned_props _ _ _ _ _ T) as (_ & _ & _ & _ & _ & I1 & I2). split; intros a Ha; auto. Qed.
Lemma fval_fin P Q a b : hd_error P = Some a -> hd_error Q = Some b -> ~ missing a -> ~ missing b -> moderate_curve P -> moderate_curve Q ->
  fval64 P Q = Fin (fr (zeroed (dof norm64 P Q)) (length P - 1) (length Q - 1)).
Proof.
  intros HP HQ Ma Mb MP MQ. apply (ffr_fin _ (length P - 1) (length Q - 1)); [|intros i j _ _; apply moderate_dof; assumption|lia|lia].
  destruct (moderate_dof P Q 0 0 MP MQ) as [N|[x [X _]]]; [|exists x; exact X]. rewrite (dof_first P Q a b HP HQ) in N. apply norm64_nan in N. tauto.
Qed.
Lemma fval_ignoring P Q a b : hd_error P = Some a -> hd_error Q = Some b -> ~ missing a -> ~ missing b -> moderate_curve P -> moderate_curve Q ->
  exists v, fval64 P Q = Fin v /\ is_frechet_ignoring P Q v.
Proof.
  intros HP HQ Ma Mb MP MQ. rewrite (fval_fin P Q a b) by assumption. set (z := zeroed (dof norm64 P Q)). set (v := fr z (length P - 1) (length Q - 1)). exists v. split; [reflexivity|].
  assert (ZP : forall i j, 0 <= z i j). { intros i j. unfold z, zeroed. destruct (moderate_dof P Q i j MP MQ) as [->|[x [-> X]]]; lra. }
  split.
  - destruct (reach_path z v (length P - 1) (length Q - 1)) as [t [H1 [H2 H3]]]; [apply fr_reach, Rle_refl|]. exists ((O, O) :: t). split; [exists t; auto|].
    intros ij x Hin C. apply computed_range in C as [_ [_ C]]. specialize (H3 ij Hin). unfold z, zeroed in H3. rewrite C in H3. exact H3.
  - intros l [t [-> [HL HE]]]. destruct (list_max_exists (fun ij => z (fst ij) (snd ij)) ((O, O) :: t)) as [ij [M1 M2]]; [discriminate|].
    assert (V : v <= z (fst ij) (snd ij)). { apply fr_reach. pose proof (path_reach z (z (fst ij) (snd ij)) t HL M2) as HR. rewrite HE in HR. exact HR. }
    destruct (moderate_dof P Q (fst ij) (snd ij) MP MQ) as [N|[x [X _]]].
    + assert (Z0 : z (fst ij) (snd ij) = 0) by (unfold z, zeroed; rewrite N; reflexivity). destruct (moderate_dof P Q 0 0 MP MQ) as [N0|[x [X X0]]].
      * rewrite (dof_first P Q a b HP HQ) in N0. apply norm64_nan in N0. tauto.
      * exists (O, O), x. split; [left; reflexivity|]. split; [apply computed_of; exact X|]. lra.
    + exists ij, x. split; [exact M1|]. split; [apply computed_of, X|]. unfold z, zeroed in V. rewrite X in V. exact V.
Qed.
Theorem C91_distance_of_curves_with_missing_vertices_refuted frames P Q a b P' Q' : hd_error P = Some a -> hd_error Q = Some b -> ~ missing a -> ~ missing b ->
  moderate_curve P -> moderate_curve Q -> thinning 2 P Q P' Q' -> (length P' + length Q' - 1 <= frames)%nat ->
  exists v calls, frdist64 frames P Q = Ok (Fin v, calls) /\ is_frechet_ignoring P' Q' v.
Proof.
  intros HP HQ Ma Mb MP MQ T F. destruct (first_kept _ _ _ _ T) as [KP KQ]. destruct (moderate_thinned _ _ _ _ T MP MQ) as [MP' MQ'].
  destruct (frdist64_value frames P Q P' Q' (hd_nonempty _ _ HP) (hd_nonempty _ _ HQ) T) as [[_ [k [E _]]]|[L _]]; [|lia].
  destruct (fval_ignoring P' Q' a b) as [v [V1 V2]]; try congruence; try assumption. exists v, k. split; [congruence|exact V2].
Qed.
Print Assumptions C91_distance_of_curves_with_missing_vertices_refuted.
Lemma moderate_small k : (Z.abs k <= 1000)%Z -> moderate (IZR k).
Proof.
  intro H. split; [rewrite <- (b64_int k) by (cbn; lia); apply b64_double|]. rewrite <- abs_IZR. eapply Rle_trans; [apply IZR_le, H|]. apply Rle_trans with (bpow radix2 10); [cbn; lra|apply bpow_le; lia].
Qed.
(** A curve of which all but the first vertex is missing is at distance 0 from a point. *)
Example C91_case : exists v calls, frdist64 10 [at_x 0; hole; hole] [at_x 0] = Ok (Fin v, calls) /\ v = 0.
Proof.
  assert (M0 : moderate 0) by (apply (moderate_small 0); cbn; lia).
  destruct (C91_distance_of_curves_with_missing_vertices_refuted 10 [at_x 0; hole; hole] [at_x 0] (at_x 0) (at_x 0) [at_x 0; hole; hole] [at_x 0]) as [v [k [E [[l [C H]] H2]]]]; try reflexivity.
  1,2: intros [H|H]; discriminate H. 1: intros a [<-|[<-|[<-|[]]]]; cbn; auto. 1: intros a [<-|[]]; cbn; auto. 1: apply thinning_done; left; cbn; lia. 1: cbn; lia.
  exists v, k. split; [exact E|].
  assert (Z : norm64 (at_x 0) (at_x 0) = Fin 0).
  { unfold norm64, at_x, fdiff. cbn [fst snd]. rewrite Rminus_diag_eq, Rabs_R0 by reflexivity. assert (F0 : fin 0 = Fin 0) by (rewrite (fin_fits 0 0), b64_0; [reflexivity|lia|cbn; lra]).
    rewrite F0. cbn [fmul]. rewrite Rmult_0_r, F0. cbn [fadd]. rewrite Rplus_0_r, F0. cbn [fsqrt]. rewrite sqrt_0. exact F0. }
  assert (X : forall ij x, computed [at_x 0; hole; hole] [at_x 0] ij x -> x = 0).
  { intros [i j] x [a [b [A [B N]]]]. cbn [fst snd] in *. destruct j as [|j]; [|destruct j; discriminate]. injection B as <-. destruct i as [|[|[|i]]]; cbn in A; [| | |destruct i; discriminate]; injection A as <-.
    - rewrite Z in N. injection N as <-. reflexivity.
    - rewrite norm64_missing in N by (left; left; reflexivity). discriminate.
    - rewrite norm64_missing in N by (left; left; reflexivity). discriminate. }
  destruct (H2 l C) as [ij [x [_ [Cx Lx]]]]. rewrite (X ij x Cx) in Lx. apply Rle_antisym; [exact Lx|].
  destruct C as [t [-> _]]. apply (H (O, O)); [left; reflexivity|]. exists (at_x 0), (at_x 0). auto.
Qed.

(** *** C92 *)
Lemma fr_perturb d d' e h n m : 0 <= e -> (forall i j, (i <= n)%nat -> (j <= m)%nat -> d' i j <= (1 + e) * d i j + h) -> fr d' n m <= (1 + e) * fr d n m + h.
Proof.
  intros He H. apply fr_reach. assert (R : reach d (fr d n m) n m) by apply fr_reach, Rle_refl. revert R. generalize (fr d n m). intros x R.
  assert (G : forall a b, a <= x -> b <= (1 + e) * a + h -> b <= (1 + e) * x + h) by (intros a b A B; assert ((1 + e) * a <= (1 + e) * x) by (apply Rmult_le_compat_l; lra); lra).
  induction R as [R|i j R IH L|i j R IH L|i j R IH L].
  - apply reach_0. apply (G _ _ R). apply H; lia.
  - apply reach_i; [apply IH; intros; apply H; lia|]. apply (G _ _ L). apply H; lia.
  - apply reach_j; [apply IH; intros; apply H; lia|]. apply (G _ _ L). apply H; lia.
  - apply reach_ij; [apply IH; intros; apply H; lia|]. apply (G _ _ L). apply H; lia.
Qed.
Lemma fr_perturb_low d d' e h n m : 0 <= e < 1 -> (forall i j, (i <= n)%nat -> (j <= m)%nat -> (1 - e) * d i j - h <= d' i j) -> (1 - e) * fr d n m - h <= fr d' n m.
Proof.
  intros He H. set (g := / (1 - e)). assert (G : (1 - e) * g = 1) by (unfold g; field; lra). assert (Gp : 0 < g) by (apply Rinv_0_lt_compat; lra).
  assert (1 <= g) by nra.
  assert (X : fr d n m <= (1 + (g - 1)) * fr d' n m + h * g).
  { apply fr_perturb; [lra|]. intros i j Hi Hj. specialize (H i j Hi Hj). replace (1 + (g - 1)) with g by ring. apply (Rmult_le_compat_l g) in H; [|lra]. replace (g * ((1 - e) * d i j - h)) with (((1 - e) * g) * d i j - h * g) in H by ring. rewrite G in H. lra. }
  apply (Rmult_le_compat_l (1 - e)) in X; [|lra]. replace ((1 - e) * ((1 + (g - 1)) * fr d' n m + h * g)) with (((1 - e) * g) * fr d' n m + h * ((1 - e) * g)) in X by ring. rewrite G in X. lra.
Qed.
Lemma thinned_some (P Q p q : list point) : thinning 2 P Q p q -> thinning 2 (map some_point P) (map some_point Q) (map some_point p) (map some_point q).
Proof. intro T. apply thinned_thinning; [|lia]. apply thinned_map. apply thinning_thinned; [exact T|lia]. Qed.
(** The computed distance of curves of doubles is that of the (thinned) curves to a relative error of 2^-51, and an absolute one far below the smallest normal double. *)
Theorem C92_accuracy_of_the_distance frames P Q P' Q' : P <> [] -> Q <> [] -> Forall moderate_point P -> Forall moderate_point Q -> thinning 2 P Q P' Q' -> (length P' + length Q' - 1 <= frames)%nat ->
  exists d v calls, is_frechet P' Q' d /\ frdist64 frames (map some_point P) (map some_point Q) = Ok (Fin v, calls) /\
    Rabs (v - d) <= d / 2 ^ 51 + bpow radix2 (-535).
Proof.
  intros HP HQ MP MQ T F. pose proof (thinned_some _ _ _ _ T) as TS. pose proof T as T0. apply thinning_thinned in T0; [|lia]. pose proof (thinned_props _ _ _ _ _ T0) as (_ & N1 & N2 & _ & _ & I1 & I2).
  specialize (N1 HP). specialize (N2 HQ). rewrite Forall_forall in MP, MQ.
  destruct (frdist64_value frames (map some_point P) (map some_point Q) _ _ ltac:(destruct P; [congruence|discriminate]) ltac:(destruct Q; [congruence|discriminate]) TS) as [[_ [k [E _]]]|[L _]]; [|rewrite !map_length in L; lia].
  assert (MM : forall R0 : list point, (forall a, In a R0 -> moderate_point a) -> moderate_curve (map some_point R0)).
  { intros R0 H a Ha. apply in_map_iff in Ha as [b [<- Hb]]. exact (H b Hb). }
  destruct (nonempty_hd P' N1) as [a Ha]. destruct (nonempty_hd Q' N2) as [b Hb].
  assert (NM : forall a, ~ missing (some_point a)) by (intros c [H|H]; discriminate H).
  assert (HM : forall R0 c, hd_error R0 = Some c -> hd_error (map some_point R0) = Some (some_point c)) by (intros R0 c H; destruct R0; [discriminate|]; injection H as ->; reflexivity).
  rewrite (fval_fin (map some_point P') (map some_point Q') (some_point a) (some_point b)) in E by auto.
  exists (fvalue P' Q'). eexists. exists k. split; [apply fvalue_frechet; assumption|]. split; [exact E|]. rewrite !map_length. set (z := zeroed _). unfold fvalue.
  assert (Z : forall i j, (i <= length P' - 1)%nat -> (j <= length Q' - 1)%nat -> Rabs (z i j - dd P' Q' i j) <= dd P' Q' i j / 2 ^ 51 + bpow radix2 (-535)).
  { intros i j Hi Hj. pose proof (len_pos P' N1). pose proof (len_pos Q' N2). unfold z, zeroed, dof. rewrite !nth_error_map, (nth_error_nth' P' (0, 0)), (nth_error_nth' Q' (0, 0)) by lia. cbn [option_map].
    destruct (norm64_eps (nth i P' (0, 0)) (nth j Q' (0, 0))) as [v [V1 [_ V3]]]; [apply MP, I1, nth_In; lia|apply MQ, I2, nth_In; lia|]. rewrite V1. exact V3. }
  assert (S : 0 < / 2 ^ 51 < 1). { split; [apply Rinv_0_lt_compat, pow_lt; lra|]. rewrite <- Rinv_1 at 1. apply Rinv_lt_contravar; [rewrite Rmult_1_l; apply pow_lt; lra|]. apply Rlt_pow_R1; [lra|lia]. }
  assert (U1 : fr z (length P' - 1) (length Q' - 1) <= (1 + / 2 ^ 51) * fr (dd P' Q') (length P' - 1) (length Q' - 1) + bpow radix2 (-535)).
  { apply fr_perturb; [lra|]. intros i j Hi Hj. specialize (Z i j Hi Hj). apply Rabs_le_inv in Z. unfold Rdiv in Z. lra. }
  assert (U2 : (1 - / 2 ^ 51) * fr (dd P' Q') (length P' - 1) (length Q' - 1) - bpow radix2 (-535) <= fr z (length P' - 1) (length Q' - 1)).
  { apply fr_perturb_low; [lra|]. intros i j Hi Hj. specialize (Z i j Hi Hj). apply Rabs_le_inv in Z. unfold Rdiv in Z. lra. }
  apply Rabs_le. unfold Rdiv. lra.
Qed.
Print Assumptions C92_accuracy_of_the_distance.
Lemma nearest_int n : ZnearestE (IZR n) = n.
Proof. apply @Zrnd_IZR, valid_rnd_N. Qed.
Lemma nearest_bounds x a b : IZR a <= x <= IZR b -> (a <= ZnearestE x <= b)%Z.
Proof. intros [A B]. split; [rewrite <- (nearest_int a); apply @Zrnd_le; [apply valid_rnd_N|]; exact A|rewrite <- (nearest_int b); apply @Zrnd_le; [apply valid_rnd_N|]; exact B]. Qed.
Definition nan_or_number (v : fl) : Prop := v = Nan \/ number v.
Lemma pmax_number a b : number a -> nan_or_number b -> number (pmax a b).
Proof. unfold pmax. intros A [->|B]; [destruct a; exact A|]. destruct (flt a b); assumption. Qed.
Lemma ffr_number d : number (d 0 0)%nat -> (forall i j, nan_or_number (d i j)) -> forall i j, number (ffr d i j).
Proof.
  intros H K. assert (PM : forall a b, number a -> number b -> number (pmin a b)) by (intros a b A B; unfold pmin; destruct (flt b a); assumption).
  induction i as [|i IHi]; induction j as [|j IHj]; rewrite ?ffr_00, ?ffr_0S, ?ffr_S0, ?ffr_SS; [exact H| | |]; apply pmax_number; auto.
Qed.
Lemma norm64_nn a b : nan_or_number (norm64 a b).
Proof. destruct (missing_dec a) as [X|X]; [left; apply norm64_missing; auto|]. destruct (missing_dec b) as [Y|Y]; [left; apply norm64_missing; auto|]. right. apply norm64_number; assumption. Qed.
Lemma fval64_nn P Q : nan_or_number (fval64 P Q).
Proof.
  assert (D : forall i j, nan_or_number (dof norm64 P Q i j)) by (intros i j; unfold dof; destruct (nth_error P i), (nth_error Q j); try (left; reflexivity); apply norm64_nn).
  destruct (D O O) as [N|N]; [left; apply ffr_nan, N|right; apply ffr_number; assumption].
Qed.
Lemma frdist64_nn frames P Q v k : frdist64 frames P Q = Ok (v, k) -> nan_or_number v.
Proof.
  intro F. destruct (ffrdist_ok norm64 frames P Q _ F) as [HP HQ]. destruct (thinning_exists P Q) as [P' [Q' T]].
  destruct (frdist64_value frames P Q P' Q' HP HQ T) as [[_ [k' [E' _]]]|[_ E']]; [|congruence]. rewrite E' in F. injection F as <- _. apply fval64_nn.
Qed.
Lemma fdiv_nn a b : nan_or_number a -> nan_or_number b -> nan_or_number (fdiv a b).
Proof.
  intros [->|[->|[x [-> X]]]] [->|[->|[y [-> Y]]]]; try (left; reflexivity).
  - right. left. reflexivity.
  - right. right. exists 0. split; [reflexivity|lra].
  - cbn [fdiv]. destruct (Req_EM_T y 0) as [Z|Z]; [destruct (Req_EM_T x 0); [left; reflexivity|right; left; reflexivity]|]. right. apply fin_number. apply div_nonneg; lra.
Qed.
Lemma fclip_range v : nan_or_number v -> fclip v = Nan \/ exists x, fclip v = Fin x /\ 0 <= x <= 1.
Proof.
  intros [->|[->|[y [-> Y]]]]; [left; reflexivity|right; exists 0; split; [reflexivity|lra]|]. right. cbn [fclip]. cbv zeta. destruct (Rlt_dec (b64 (1 - y)) 0) as [L|L]; [exists 0; split; [reflexivity|lra]|].
  eexists. split; [reflexivity|]. assert (R1 : b64 (1 - y) <= 1) by (apply Rle_trans with (b64 1); [apply b64_le; lra|rewrite b64_1; lra]).
  assert (I : b64 (IZR 10000) = IZR 10000) by (apply b64_int; cbn; lia).
  assert (N : (0 <= ZnearestE (b64 (b64 (1 - y) * 10000)) <= 10000)%Z). { apply nearest_bounds. split; [apply b64_pos; lra|]. apply Rle_trans with (b64 10000); [apply b64_le; lra|rewrite I; lra]. }
  destruct N as [N1 N2]. apply IZR_le in N1, N2. split; [apply b64_pos, div_nonneg; lra|]. apply Rle_trans with (b64 1); [|rewrite b64_1; lra]. apply b64_le. apply (Rmult_le_reg_r 10000); [lra|]. unfold Rdiv. rewrite Rmult_assoc, Rinv_l by lra. lra.
Qed.
Lemma fsqrt_nn v : nan_or_number (fsqrt v).
Proof. destruct v as [|x|]; [left; reflexivity|right; apply fin_number, sqrt_pos|right; left; reflexivity]. Qed.
(** The similarity of any two curves in double arithmetic is NaN or between 0 and 1. *)
Theorem C93_similarity_range mdist frames P Q s : sim64 mdist frames P Q = Ok s -> s = Nan \/ exists x, s = Fin x /\ 0 <= x <= 1.
Proof.
  intro E. unfold sim64 in E. destruct (frdist64 frames P Q) as [[fd k]|e] eqn:F; [|discriminate]. cbn [bind] in E. injection E as <-.
  apply fclip_range, fdiv_nn; [exact (frdist64_nn _ _ _ _ _ F)|]. apply fdiv_nn; [apply fsqrt_nn|right; apply fin_number, sqrt_pos].
Qed.
Print Assumptions C93_similarity_range.
Lemma thinning_swap {A} (P Q P' Q' : list A) : thinning 2 P Q P' Q' -> thinning 2 Q P Q' P'.
Proof. intro T. apply thinned_thinning; [|lia]. apply thinned_swap, thinning_thinned; [exact T|lia]. Qed.
Theorem C93_similarity_symmetric mdist frames P Q : sim64 mdist frames P Q = sim64 mdist frames Q P.
Proof.
  unfold sim64. assert (C : forall a b, fmul a b = fmul b a). { intros [|x|] [|y|]; cbn [fmul]; try reflexivity. rewrite Rmult_comm. reflexivity. }
  rewrite (C (farc mdist P)). set (w := fdiv (fsqrt _) _). clearbody w.
  assert (D : (P = [] \/ Q = []) \/ (P <> [] /\ Q <> [])) by (destruct P, Q; auto; right; split; discriminate).
  destruct D as [D|[HP HQ]]; [unfold frdist64; rewrite !ffrdist_empty by tauto; reflexivity|]. destruct (thinning_exists P Q) as [P' [Q' T]].
  destruct (frdist64_value frames P Q P' Q' HP HQ T) as [[L [k [E _]]]|[L E]]; destruct (frdist64_value frames Q P Q' P' HQ HP (thinning_swap _ _ _ _ T)) as [[L' [k' [E' _]]]|[L' E']]; try lia; rewrite E, E'; [|reflexivity].
  cbn [bind]. unfold fval64. rewrite (fval_sym norm64 norm64_sym norm64_num). reflexivity.
Qed.
Print Assumptions C93_similarity_symmetric.
Lemma fin_0 : fin 0 = Fin 0. Proof. rewrite (fin_fits 0 0), b64_0; [reflexivity|lia|cbn; lra]. Qed.
Lemma norm64_self a : ~ missing a -> norm64 a a = Fin 0.
Proof.
  destruct a as [[x|] [y|]]; unfold missing; cbn [fst snd]; try tauto. intros _. unfold norm64, fdiff. cbn [fst snd]. rewrite !Rminus_diag_eq, Rabs_R0 by reflexivity.
  rewrite fin_0. cbn [fmul]. rewrite Rmult_0_r, fin_0. cbn [fadd]. rewrite Rplus_0_r, fin_0. cbn [fsqrt]. rewrite sqrt_0. exact fin_0.
Qed.
Lemma fval_self P : P <> [] -> moderate_curve P -> (forall a, In a P -> ~ missing a) -> fval64 P P = Fin 0.
Proof.
  intros HP MP NP. destruct (nonempty_hd P HP) as [a Ha]. assert (In a P) by (destruct P; [discriminate|]; injection Ha as ->; left; reflexivity).
  rewrite (fval_fin P P a a) by auto. f_equal. apply Rle_antisym.
  - apply fr_reach, diag_reach. intros i Hi. unfold zeroed, dof. destruct (nth_error P i) as [b|] eqn:B; [|lra]. apply nth_error_In in B. rewrite norm64_self by auto. lra.
  - eapply Rle_trans; [|apply fr_ge]. unfold zeroed. destruct (moderate_dof P P (length P - 1) (length P - 1) MP MP) as [->|[x [-> X]]]; lra.
Qed.
Lemma frdist64_self frames P r : moderate_curve P -> (forall a, In a P -> ~ missing a) -> frdist64 frames P P = Ok r -> fst r = Fin 0.
Proof.
  intros MP NP F. destruct (ffrdist_ok norm64 frames P P _ F) as [HP _]. destruct (thinning_exists P P) as [P' [Q' T]].
  destruct (frdist64_value frames P P P' Q' HP HP T) as [[_ [k' [E' _]]]|[_ E']]; [|congruence]. rewrite E' in F. injection F as <-. cbn [fst].
  pose proof T as T0. apply thinning_thinned in T0; [|lia]. pose proof (thinned_self _ _ _ _ T0) as <-. pose proof (thinned_props _ _ _ _ _ T0) as (_ & N1 & _ & _ & _ & I1 & _).
  apply fval_self; [apply N1, HP|intros a Ha; apply MP, I1, Ha|intros a Ha; apply NP, I1, Ha].
Qed.
Lemma sqrt2_bounds : 1 <= sqrt 2 <= 2.
Proof. split; [rewrite <- sqrt_1 at 1; apply sqrt_le_1; lra|]. apply sqrt_upper; lra. Qed.
Lemma b64_ge_bpow x e : (-1074 <= e)%Z -> bpow radix2 e <= x -> bpow radix2 e <= b64 x.
Proof. intros H L. rewrite <- (b64_id (bpow radix2 e)) by (apply double_bpow, H). apply b64_le, L. Qed.
(** A curve without missing vertices has the similarity 1 with itself, when its computed length can be squared without overflow or underflow. *)
Theorem C93_curve_with_itself_partial mdist frames P L s : moderate_curve P -> (forall a, In a P -> ~ missing a) ->
  farc mdist P = Fin L -> bpow radix2 (-500) <= L <= bpow radix2 500 -> sim64 mdist frames P P = Ok s -> s = Fin 1.
Proof.
  intros MP NP A [L1 L2] E. unfold sim64 in E. destruct (frdist64 frames P P) as [[fd k]|e] eqn:F; [|discriminate]. cbn [bind] in E. injection E as <-.
  pose proof (frdist64_self frames P _ MP NP F) as Z. cbn [fst] in Z. subst fd. rewrite A. cbn [fmul].
  pose proof (bpow_gt_0 radix2 (-500)) as P0.
  assert (S1 : bpow radix2 (-1000) <= L * L) by (change (-1000)%Z with (-500 + -500)%Z; rewrite bpow_plus; nra). assert (S2 : L * L <= bpow radix2 1000) by (change 1000%Z with (500 + 500)%Z; rewrite bpow_plus; nra).
  pose proof (bpow_gt_0 radix2 (-1000)). rewrite (fin_fits _ 1000) by (try lia; lra). cbn [fsqrt].
  pose proof (b64_ge_bpow _ (-1000) ltac:(lia) S1) as T1. pose proof (b64_le_bpow _ 1000 ltac:(lia) S2) as T2. set (q := b64 (L * L)) in *.
  assert (R1 : bpow radix2 (-500) <= sqrt q) by (apply sqrt_lower; [rewrite <- bpow_plus; exact T1|apply bpow_ge_0]). assert (R2 : sqrt q <= bpow radix2 500) by (apply sqrt_upper; [apply bpow_ge_0|rewrite <- bpow_plus; exact T2]).
  rewrite (fin_fits _ 500) by (try lia; lra). pose proof (b64_ge_bpow _ (-500) ltac:(lia) R1) as V1. pose proof (b64_le_bpow _ 500 ltac:(lia) R2) as V2. set (r := b64 (sqrt q)) in *.
  pose proof sqrt2_bounds as [W1 W2]. rewrite (fin_fits (sqrt 2) 1) by (try lia; change (bpow radix2 1) with 2; lra).
  pose proof (b64_ge_bpow (sqrt 2) 0 ltac:(lia) W1) as X1. pose proof (b64_le_bpow (sqrt 2) 1 ltac:(lia) W2) as X2. change (bpow radix2 0) with 1 in X1. change (bpow radix2 1) with 2 in X2. set (g := b64 (sqrt 2)) in *.
  assert (DV : fdiv (Fin r) (Fin g) = Fin (b64 (r / g)) /\ b64 (r / g) <> 0).
  { cbn [fdiv]. destruct (Req_EM_T g 0); [lra|].
    assert (Y : bpow radix2 (-501) <= r / g <= bpow radix2 500).
    { split.
      - apply (Rmult_le_reg_r g); [lra|]. unfold Rdiv. rewrite Rmult_assoc, Rinv_l, Rmult_1_r by lra. apply Rle_trans with (bpow radix2 (-500)); [|exact V1]. change (-500)%Z with (-501 + 1)%Z. rewrite bpow_twice. pose proof (bpow_gt_0 radix2 (-501)). nra.
      - apply (Rmult_le_reg_r g); [lra|]. unfold Rdiv. rewrite Rmult_assoc, Rinv_l, Rmult_1_r by lra. pose proof (bpow_gt_0 radix2 500). nra. }
    pose proof (bpow_gt_0 radix2 (-501)). split; [apply (fin_fits _ 500); [lia|lra]|]. pose proof (b64_ge_bpow _ (-501) ltac:(lia) (proj1 Y)). lra. }
  destruct DV as [-> N]. cbn [fdiv]. destruct (Req_EM_T _ 0); [contradiction|]. unfold Rdiv at 1. rewrite Rmult_0_l, fin_0. cbn [fclip]. cbv zeta. rewrite Rminus_0_r, b64_1. destruct (Rlt_dec 1 0); [lra|].
  rewrite Rmult_1_l. assert (I : b64 (IZR 10000) = IZR 10000) by (apply b64_int; cbn; lia). rewrite I, nearest_int. f_equal. unfold Rdiv. rewrite Rinv_r by lra. apply b64_1.
Qed.
Print Assumptions C93_curve_with_itself_partial.
(** Otherwise the product of the lengths underflows and the similarity of the curve with itself is NaN. *)
Theorem C93_tiny_curve_refuted mdist frames P L s : moderate_curve P -> (forall a, In a P -> ~ missing a) ->
  farc mdist P = Fin L -> 0 <= L <= bpow radix2 (-538) -> sim64 mdist frames P P = Ok s -> s = Nan.
Proof.
  intros MP NP A [L1 L2] E. unfold sim64 in E. destruct (frdist64 frames P P) as [[fd k]|e] eqn:F; [|discriminate]. cbn [bind] in E. injection E as <-.
  pose proof (frdist64_self frames P _ MP NP F) as Z. cbn [fst] in Z. subst fd. rewrite A. cbn [fmul].
  assert (Z : b64 (L * L) = 0).
  { assert (0 <= L * L <= bpow radix2 (-1076)) by (split; [nra|]; change (-1076)%Z with (-538 + -538)%Z; rewrite bpow_plus; nra).
    destruct (Req_dec (L * L) 0) as [->|N]; [apply b64_0|]. unfold b64. apply (round_N_small_pos radix2 _ _ _ (mag radix2 (L * L))).
    - destruct (mag radix2 (L * L)) as [ex Hex]. cbn. specialize (Hex N). rewrite Rabs_pos_eq in Hex by lra. exact Hex.
    - assert (mag radix2 (L * L) <= -1075)%Z. { apply mag_le_bpow; [exact N|]. rewrite Rabs_pos_eq by lra. eapply Rle_lt_trans; [apply H|]. apply bpow_lt. lia. }
      unfold FLT_exp. lia. }
  assert (FZ : fin (L * L) = Fin 0). { unfold fin. rewrite Z, Rabs_R0. destruct (Rle_lt_dec _ _) as [X|X]; [pose proof (bpow_gt_0 radix2 1024); lra|reflexivity]. }
  rewrite FZ. cbn [fsqrt]. rewrite sqrt_0, fin_0. pose proof sqrt2_bounds as [W1 W2]. rewrite (fin_fits (sqrt 2) 1) by (try lia; change (bpow radix2 1) with 2; lra).
  pose proof (b64_ge_bpow (sqrt 2) 0 ltac:(lia) W1) as X1. change (bpow radix2 0) with 1 in X1. cbn [fdiv]. destruct (Req_EM_T (b64 (sqrt 2)) 0); [lra|]. unfold Rdiv. rewrite Rmult_0_l, fin_0. cbn [fdiv].
  destruct (Req_EM_T 0 0); [reflexivity|congruence].
Qed.
Print Assumptions C93_tiny_curve_refuted.

(** Curves that meet the hypotheses; the distance of vertices for the lengths is the rounded exact one. *)
Definition mdist64 (a b : fpoint) : fl := match a, b with (Some x, Some y), (Some x', Some y') => fin (dist (x, y) (x', y')) | _, _ => Nan end.
Lemma mdist64_missing a b : missing a \/ missing b -> mdist64 a b = Nan.
Proof. unfold missing, mdist64. destruct a as [[?|] [?|]], b as [[?|] [?|]]; cbn [fst snd]; try reflexivity. intros [[H|H]|[H|H]]; discriminate H. Qed.
Lemma stick_length x e : (-1074 <= e < 1024)%Z -> double x -> 0 <= x <= bpow radix2 e -> farc mdist64 [at_x 0; at_x x] = Fin x.
Proof.
  intros He D H. unfold farc. cbn [farc_from]. unfold mdist64, at_x. cbn [fst snd]. rewrite dist_axis by apply H. rewrite (fin_fits _ e) by assumption. rewrite b64_id by exact D. cbn [fadd].
  rewrite Rplus_0_l, (fin_fits _ e) by assumption. rewrite b64_id by exact D. reflexivity.
Qed.
Lemma short2 {A} (a b : A) Q : not_thinned [a; b] Q. Proof. left. cbn. lia. Qed.
Lemma stick_ok x P Q : moderate x -> P = [at_x 0; at_x x] -> Q = [at_x 0; at_x x] -> moderate_curve P /\ (forall a, In a P -> ~ missing a) /\ exists s, sim64 mdist64 10 P Q = Ok s.
Proof.
  intros M -> ->. assert (M0 : moderate 0) by (apply (moderate_small 0); cbn; lia). split; [intros a [<-|[<-|[]]]; cbn; auto|]. split; [intros a [<-|[<-|[]]] [H|H]; discriminate H|].
  unfold sim64. destruct (frdist64_value 10 [at_x 0; at_x x] [at_x 0; at_x x] _ _ ltac:(discriminate) ltac:(discriminate) (thinning_done 2 _ _ (short2 _ _ _))) as [[_ [k [E _]]]|[L _]]; [|cbn in L; lia].
  rewrite E. eexists. reflexivity.
Qed.
Example C93_case : sim64 mdist64 10 [at_x 0; at_x 1] [at_x 0; at_x 1] = Ok (Fin 1) /\ sim64 mdist64 10 [at_x 0; at_x (bpow radix2 (-600))] [at_x 0; at_x (bpow radix2 (-600))] = Ok Nan.
Proof.
  assert (MS : forall e, (-1074 <= e <= 0)%Z -> moderate (bpow radix2 e)).
  { intros e He. split; [apply double_bpow; lia|]. rewrite Rabs_pos_eq by apply bpow_ge_0. apply bpow_le. lia. }
  split.
  - destruct (stick_ok 1 _ _ (MS 0%Z ltac:(lia)) eq_refl eq_refl) as [A [B [s E]]]. rewrite E. f_equal. apply (C93_curve_with_itself_partial mdist64 10 _ 1 s A B); [apply (stick_length 1 0); [lia|apply (double_bpow 0); lia|cbn; lra]| |exact E].
    split; [change 1 with (bpow radix2 0); apply bpow_le; lia|change 1 with (bpow radix2 0) at 1; apply bpow_le; lia].
  - destruct (stick_ok (bpow radix2 (-600)) _ _ (MS (-600)%Z ltac:(lia)) eq_refl eq_refl) as [A [B [s E]]]. rewrite E. f_equal.
    apply (C93_tiny_curve_refuted mdist64 10 _ (bpow radix2 (-600)) s A B); [apply (stick_length _ 0); [lia|apply double_bpow; lia|]| |exact E].
    + split; [apply bpow_ge_0|apply bpow_le; lia].
    + split; [apply bpow_ge_0|apply bpow_le; lia].
Qed.
Example C92_accuracy_case : exists d v calls, is_frechet [(0, 0); (1, 0)] [(0, 2)] d /\ frdist64 10 (map some_point [(0, 0); (1, 0)]) (map some_point [(0, 2)]) = Ok (Fin v, calls) /\ Rabs (v - d) <= d / 2 ^ 51 + bpow radix2 (-535).
Proof.
  assert (M : forall k, (Z.abs k <= 1000)%Z -> moderate (IZR k)) by exact moderate_small.
  apply C92_accuracy_of_the_distance; try discriminate.
  - apply Forall_forall. intros a [<-|[<-|[]]]; split; apply M; cbn; lia.
  - apply Forall_forall. intros a [<-|[]]; split; apply M; cbn; lia.
  - apply thinning_done. left. cbn. lia.
  - cbn. lia.
Qed.
Example C91_similarity_case : exists s, sim64 mdist64 10 [at_x 0; hole] [at_x 0; at_x 1] = Ok s /\ s = Nan.
Proof.
  destruct (sim64 mdist64 10 [at_x 0; hole] [at_x 0; at_x 1]) as [s|e] eqn:E.
  - exists s. split; [reflexivity|]. apply (C91_similarity_of_curves_with_missing_vertices mdist64 10 [at_x 0; hole] [at_x 0; at_x 1] s mdist64_missing); [exists hole; split; [left; right; left; reflexivity|left; reflexivity]|exact E].
  - exfalso. unfold sim64 in E. destruct (frdist64_value 10 [at_x 0; hole] [at_x 0; at_x 1] _ _ ltac:(discriminate) ltac:(discriminate) (thinning_done 2 _ _ (short2 _ _ _))) as [[_ [k [E' _]]]|[L _]]; [|cbn in L; lia].
    rewrite E' in E. discriminate.
Qed.

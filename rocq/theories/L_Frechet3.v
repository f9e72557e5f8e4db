From Coq Require Import Reals Lra Lia.
From Verif Require Import M_Base M_Frechet S_Frechet L_Frechet L_Frechet2.
Open Scope R_scope.

Lemma every_nth {A} c : (1 <= c)%nat -> forall (l : list A) k i, nth_error (every c k l) i = nth_error l (k + i * c).
Proof.
  intros Hc. induction l as [|x l IH]; intros k i; [cbn [every]; destruct i, (k + _)%nat; reflexivity|]. destruct k as [|k]; cbn [every].
  - destruct i as [|i]; [reflexivity|]. cbn [nth_error]. rewrite IH. replace (0 + S i * c)%nat with (S (c - 1 + i * c)) by lia. reflexivity.
  - rewrite IH. reflexivity.
Qed.
Lemma every_kept {A} c (l : list A) : (1 <= c)%nat -> kept c l (every c 0 l).
Proof. intros H i. apply every_nth, H. Qed.
Lemma nth_error_eq {A} : forall (l l' : list A), (forall i, nth_error l i = nth_error l' i) -> l = l'.
Proof.
  induction l as [|a l IH]; intros [|b l'] H; [reflexivity|specialize (H O); discriminate|specialize (H O); discriminate|].
  pose proof (H O) as E. injection E as ->. f_equal. apply IH. intro i. exact (H (S i)).
Qed.
Lemma kept_every {A} c (l l' : list A) : (1 <= c)%nat -> kept c l l' -> l' = every c 0 l.
Proof. intros Hc H. apply nth_error_eq. intro i. rewrite H. symmetry. apply every_kept, Hc. Qed.
Lemma thinned_thinning {A} c (p q p' q' : list A) : thinned c p q p' q' -> (1 <= c)%nat -> thinning c p q p' q'.
Proof.
  induction 1 as [c p q H|c p q p' q' E _ IH]; intro Hc; [constructor; exact H|].
  apply thinning_round with (every c 0 p) (every c 0 q); [rewrite <- both_long_false; congruence|apply every_kept, Hc|apply every_kept, Hc|apply IH; lia].
Qed.
Lemma thinning_thinned {A} c (p q p' q' : list A) : thinning c p q p' q' -> (1 <= c)%nat -> thinned c p q p' q'.
Proof.
  induction 1 as [c p q H|c p q p1 q1 p' q' E K1 K2 _ IH]; intro Hc; [constructor; exact H|].
  apply thinned_more; [destruct (both_long p q) eqn:B; [reflexivity|elim E; apply both_long_false, B]|].
  rewrite <- (kept_every c p p1 Hc K1), <- (kept_every c q q1 Hc K2). apply IH. lia.
Qed.

Lemma frdist_plain_spec frames P Q d : not_thinned P Q -> frdist frames P Q = Ok d -> is_frechet P Q d.
Proof.
  intros N H. destruct (frdist_ok _ _ _ _ H) as [HP [HQ _]]. rewrite frdist_plain in H by assumption. unfold outcome in H.
  destruct (Nat.leb _ _); [|discriminate]. injection H as <-. apply fvalue_frechet; assumption.
Qed.
Lemma frdist_defined frames P Q : P <> [] -> Q <> [] -> not_thinned P Q -> (length P + length Q - 1 <= frames)%nat -> exists d, frdist frames P Q = Ok d.
Proof.
  intros HP HQ N L. exists (fvalue P Q). rewrite frdist_plain by assumption. unfold outcome. apply Nat.leb_le in L. rewrite L. reflexivity.
Qed.
Lemma frdist_thinned_spec frames P Q d : frdist frames P Q = Ok d -> exists P' Q', thinning 2 P Q P' Q' /\ is_frechet P' Q' d.
Proof.
  intro H. destruct (frdist_ok _ _ _ _ H) as [_ [_ [p [q [T [A [B ->]]]]]]]. exists p, q. split; [apply thinned_thinning; [exact T|lia]|apply fvalue_frechet; assumption].
Qed.

(** *** the witness for thinning *)
Definition flat (n : nat) : list point := repeat (0, 0) n.
Definition spike (K : R) (n : nat) : list point := (0, 0) :: (K, 0) :: flat n.
Lemma every_flat c n k : exists m, every c k (flat n) = flat m.
Proof. apply every_repeat. Qed.
Lemma every_spike c K n : (2 <= c)%nat -> exists m, every c 0 (spike K n) = flat m.
Proof.
  intro Hc. unfold spike. cbn [every]. destruct c as [|[|c]]; [lia|lia|]. cbn [Nat.sub every].
  destruct (every_flat (S (S c)) n c) as [m E]. exists (S m). replace (c - 0)%nat with c by lia. rewrite E. reflexivity.
Qed.
Lemma thinned_flat c p q p' q' : thinned c p q p' q' -> (exists n, p = flat n) -> (exists n, q = flat n) -> (exists n, p' = flat n) /\ (exists n, q' = flat n).
Proof.
  induction 1 as [c p q H|c p q p' q' E _ IH]; intros Hp Hq; [auto|]. destruct Hp as [n ->], Hq as [m ->]. apply IH; apply every_flat.
Qed.
Lemma nth_flat n i : nth i (flat n) (0, 0) = (0, 0).
Proof. apply nth_repeat. Qed.
Lemma fvalue_flat n m : fvalue (flat n) (flat m) = 0.
Proof.
  apply Rle_antisym; [|apply fvalue_nonneg]. unfold fvalue. generalize (length (flat n) - 1)%nat, (length (flat m) - 1)%nat. intros a b.
  apply fr_reach. induction a as [|a IH].
  - induction b as [|b IH]; [apply reach_0|apply reach_j; [exact IH|]]; unfold dd; rewrite !nth_flat, dist_refl; lra.
  - apply reach_i; [exact IH|]. unfold dd; rewrite !nth_flat, dist_refl; lra.
Qed.
Lemma dist_axis K : 0 <= K -> dist (0, 0) (K, 0) = K.
Proof. intro H. unfold dist. cbn [fst snd]. replace ((0 - K)² + (0 - 0)²) with (K²) by (unfold Rsqr; ring). apply sqrt_Rsqr, H. Qed.
Lemma fvalue_spike K n : 0 <= K -> fvalue (flat (S (S n))) (spike K n) = K.
Proof.
  intro HK. assert (L1 : length (flat (S (S n))) = S (S n)) by apply repeat_length. assert (L2 : length (spike K n) = S (S n)) by (cbn; f_equal; f_equal; apply repeat_length).
  assert (D : forall i j, dd (flat (S (S n))) (spike K n) i j = if Nat.eqb j 1 then K else 0).
  { intros i j. unfold dd. rewrite nth_flat. destruct j as [|[|j]]; cbn [spike nth Nat.eqb]; [apply dist_refl|apply dist_axis, HK|rewrite nth_flat; apply dist_refl]. }
  apply Rle_antisym.
  - unfold fvalue. rewrite L1, L2. apply fr_reach, diag_reach. intros i _. rewrite D. destruct (Nat.eqb i 1); lra.
  - unfold fvalue. rewrite L1, L2. assert (H : reach (dd (flat (S (S n))) (spike K n)) (fr (dd (flat (S (S n))) (spike K n)) (S (S n) - 1) (S (S n) - 1)) (S (S n) - 1) (S (S n) - 1)) by apply fr_reach, Rle_refl.
    revert H. generalize (fr (dd (flat (S (S n))) (spike K n)) (S (S n) - 1) (S (S n) - 1)). intros e H.
    assert (G : forall i j, reach (dd (flat (S (S n))) (spike K n)) e i j -> (1 <= j)%nat -> K <= e).
    { clear H. intros i j H. induction H as [H0|i j Hr IH H0|i j Hr IH H0|i j Hr IH H0]; intro Hj; [lia|auto| |]; (destruct j as [|j]; [rewrite D in H0; exact H0|apply IH; lia]). }
    apply (G _ _ H). lia.
Qed.
Lemma thinning_hides K : 0 < K -> exists P Q, ~ not_thinned P Q /\ frdist (Z.to_nat 1000) P Q = Ok 0 /\ is_frechet P Q K.
Proof.
  intro HK. remember (Z.to_nat 300) as n eqn:En. exists (flat (S (S n))), (spike K n).
  assert (L1 : length (flat (S (S n))) = S (S n)) by apply repeat_length. assert (L2 : length (spike K n) = S (S n)) by (cbn; f_equal; f_equal; apply repeat_length).
  assert (N : ~ not_thinned (flat (S (S n))) (spike K n)) by (unfold not_thinned; rewrite L1, L2; lia).
  split; [exact N|]. split.
  - destruct (frdist_eval (Z.to_nat 1000) (flat (S (S n))) (spike K n)) as [p [q [T [_ [_ E]]]]]; try discriminate. rewrite E. inversion T as [|c p0 q0 p1 q1 B T1]; subst; [contradiction|].
    destruct (thinned_flat _ _ _ _ _ T1 (every_flat _ _ _) (every_spike 2 K _ ltac:(lia))) as [[a ->] [b ->]].
    assert (L : (length (flat a) + length (flat b) - 1 <= Z.to_nat 1000)%nat).
    { assert (G : forall c (p q p' q' : list point), thinned c p q p' q' -> (length p' <= length p /\ length q' <= length q)%nat).
      { clear. induction 1 as [|c p q p' q' _ _ [I1 I2]]; [lia|]. pose proof (every_le c p 0). pose proof (every_le c q 0). lia. }
      pose proof (G _ _ _ _ _ T) as [G1 G2]. rewrite L1 in G1. rewrite L2 in G2. lia. }
    unfold outcome. apply Nat.leb_le in L. rewrite L, fvalue_flat. reflexivity.
  - assert (F : is_frechet (flat (S (S n))) (spike K n) (fvalue (flat (S (S n))) (spike K n))) by (apply fvalue_frechet; discriminate).
    rewrite fvalue_spike in F by lra. exact F.
Qed.

(** *** recursion *)
Lemma frdist_frames frames P Q P' Q' : P <> [] -> Q <> [] -> thinning 2 P Q P' Q' ->
  ((length P' + length Q' - 1 <= frames)%nat /\ exists d, frdist frames P Q = Ok d) \/ ((frames < length P' + length Q' - 1)%nat /\ frdist frames P Q = Err RecursionError).
Proof.
  intros HP HQ T. destruct (frdist_eval frames P Q HP HQ) as [p [q [T' [_ [_ E]]]]]. apply thinning_thinned in T; [|lia].
  destruct (thinned_unique _ _ _ _ _ T _ _ T') as [-> ->]. rewrite E. unfold outcome.
  destruct (Nat.leb_spec (length p + length q - 1) frames); [left|right]; eauto.
Qed.
Lemma thinning_exists {A} (P Q : list A) : exists P' Q', thinning 2 P Q P' Q'.
Proof.
  destruct (thin_ok (length P) 2 P Q) as [p [q [_ T]]]; try lia. exists p, q. apply thinned_thinning; [exact T|lia].
Qed.
Lemma overflow_1000 P Q : (1000 <= Z.of_nat (length P))%Z -> (2 <= Z.of_nat (length Q) <= 300)%Z -> frdist (Z.to_nat 1000) P Q = Err RecursionError.
Proof.
  intros H1 H2. assert (P <> []) by (intros ->; cbn in H1; lia). assert (Q <> []) by (intros ->; cbn in H2; lia).
  rewrite frdist_plain; [|assumption|assumption|right; lia]. unfold outcome. destruct (Nat.leb_spec (length P + length Q - 1) (Z.to_nat 1000)); [lia|reflexivity].
Qed.

(** *** laws *)
Lemma law_nonneg frames P Q d : frdist frames P Q = Ok d -> 0 <= d.
Proof. intro H. destruct (frdist_ok _ _ _ _ H) as [_ [_ [p [q [_ [_ [_ ->]]]]]]]. apply fvalue_nonneg. Qed.
Lemma law_self frames P d : frdist frames P P = Ok d -> d = 0.
Proof. intro H. destruct (frdist_ok _ _ _ _ H) as [_ [_ [p [q [T [_ [_ ->]]]]]]]. rewrite (thinned_self _ _ _ _ T). apply fvalue_self. Qed.
Lemma law_first frames P Q d a b : frdist frames P Q = Ok d -> hd_error P = Some a -> hd_error Q = Some b -> dist a b <= d.
Proof.
  intros H Ha Hb. destruct (frdist_ok _ _ _ _ H) as [_ [_ [p [q [T [_ [_ ->]]]]]]]. destruct (thinned_props _ _ _ _ _ T) as [_ [_ [_ [E1 [E2 _]]]]].
  apply fvalue_first; congruence.
Qed.
Lemma law_last frames P Q d x : not_thinned P Q -> frdist frames P Q = Ok d -> dist (last P x) (last Q x) <= d.
Proof.
  intros N H. destruct (frdist_ok _ _ _ _ H) as [HP [HQ _]]. rewrite frdist_plain in H by assumption. unfold outcome in H.
  destruct (Nat.leb _ _); [|discriminate]. injection H as <-. apply fvalue_last; assumption.
Qed.
Lemma law_zero frames P Q : not_thinned P Q -> no_repeat P -> no_repeat Q -> frdist frames P Q = Ok 0 -> P = Q.
Proof.
  intros N NP NQ H. destruct (frdist_ok _ _ _ _ H) as [HP [HQ _]]. rewrite frdist_plain in H by assumption. unfold outcome in H.
  destruct (Nat.leb _ _); [|discriminate]. injection H as H. apply fvalue_zero; assumption.
Qed.
Lemma law_triangle f1 f2 f3 P Q S_ x y z : not_thinned P Q -> not_thinned Q S_ -> not_thinned P S_ ->
  frdist f1 P Q = Ok x -> frdist f2 Q S_ = Ok y -> frdist f3 P S_ = Ok z -> z <= x + y.
Proof.
  intros N1 N2 N3 H1 H2 H3. destruct (frdist_ok _ _ _ _ H1) as [HP [HQ _]]. destruct (frdist_ok _ _ _ _ H2) as [_ [HS _]].
  rewrite frdist_plain in H1, H2, H3 by assumption. unfold outcome in *. repeat (destruct (Nat.leb _ _); [|discriminate]).
  injection H1 as <-. injection H2 as <-. injection H3 as <-. apply fvalue_triangle.
Qed.

(** *** similarity *)
Lemma similarity_range frames P Q s : compute_similarity frames P Q = Ok s -> 0 < arc_length P -> 0 < arc_length Q -> 0 <= s <= 1.
Proof.
  intros H LP LQ. rewrite similarity_eval in H. destruct (frdist frames P Q) as [v|] eqn:E; [|discriminate]. injection H as <-.
  pose proof (ratio_nonneg P Q v LP LQ (law_nonneg _ _ _ _ E)) as Hr. split.
  - rewrite <- round4_0 at 1. apply round4_mono, Rmax_r.
  - rewrite <- round4_1 at 2. apply round4_mono, Rmax_lub; lra.
Qed.
Lemma similarity_sym frames P Q : compute_similarity frames P Q = compute_similarity frames Q P.
Proof. rewrite !similarity_eval, frdist_sym. unfold ratio. rewrite Rmult_comm. reflexivity. Qed.
Lemma similarity_self frames P s : compute_similarity frames P P = Ok s -> s = 1.
Proof.
  intro H. rewrite similarity_eval in H. destruct (frdist frames P P) as [v|] eqn:E; [|discriminate]. injection H as <-. rewrite (law_self _ _ _ E).
  unfold ratio. replace (1 - 0 / (sqrt (arc_length P * arc_length P) / sqrt 2)) with 1 by (unfold Rdiv; ring). rewrite Rmax_left by lra. apply round4_1.
Qed.
Lemma similarity_errors frames P Q e : compute_similarity frames P Q = Err e <-> frdist frames P Q = Err e.
Proof. rewrite similarity_eval. destruct (frdist frames P Q); cbn; split; congruence. Qed.
(** With positive lengths, the score is 1 only if the distance is small against the lengths. *)
Lemma similarity_close frames P Q s d : compute_similarity frames P Q = Ok s -> frdist frames P Q = Ok d -> 0 < arc_length P -> 0 < arc_length Q ->
  Rabs (s - Rmax (1 - sqrt 2 * d / sqrt (arc_length P * arc_length Q)) 0) <= / 20000.
Proof.
  intros H E LP LQ. rewrite similarity_eval, E in H. injection H as <-.
  assert (0 < sqrt (arc_length P * arc_length Q)) by (apply sqrt_lt_R0, Rmult_lt_0_compat; assumption). assert (0 < sqrt 2) by (apply sqrt_lt_R0; lra).
  replace (sqrt 2 * d / sqrt (arc_length P * arc_length Q)) with (ratio P Q d) by (unfold ratio; field; lra). apply round4_close.
Qed.
Lemma two_pos a b : a <> b -> 0 < arc_length [a; b].
Proof.
  intro H. rewrite arc_cons, arc_single. pose proof (dist_nonneg a b). destruct (Req_dec (dist a b) 0) as [E|E]; [elim H; apply dist_zero, E|lra].
Qed.

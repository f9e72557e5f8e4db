From Coq Require Import Reals Lra Lia.
From Coquelicot Require Import Coquelicot.
From Verif Require Import M_Base M_Area M_AreaR S_Area S_Area2 L_Area L_Area2.
Open Scope R_scope.

Lemma change_wrap p q d : azimuth_change p q d -> d = wrap (az q - az p).
Proof. intros [A [k B]]. rewrite B. replace (2 * PI) with TP by reflexivity. rewrite wrap_shift. symmetry. apply wrap_small, A. Qed.
Lemma wrap_change p q : azimuth_change p q (wrap (az q - az p)).
Proof. split; [apply wrap_range|]. destruct (wrap_eqm (az q - az p)) as [k E]. exists k. exact E. Qed.
Lemma cos_int a b d : b <> 0 -> RInt (fun t => (1 - cos (a + t * b)) * d) 0 1 = (1 - (sin (a + b) - sin a) / b) * d.
Proof.
  intro Hb. apply is_RInt_unique. replace ((1 - (sin (a + b) - sin a) / b) * d) with (minus ((1 - sin (a + 1 * b) / b) * d) ((0 - sin (a + 0 * b) / b) * d)).
  2: { unfold minus, plus, opp; cbn. rewrite Rmult_1_l, Rmult_0_l, Rplus_0_r. field. exact Hb. }
  apply (is_RInt_derive (fun t => (t - sin (a + t * b) / b) * d) (fun t => (1 - cos (a + t * b)) * d)).
  - intros t _. auto_derive; [exact I|]. field. exact Hb.
  - intros t _. apply (ex_derive_continuous (fun t => (1 - cos (a + t * b)) * d)). auto_derive. exact I.
Qed.
Lemma const_int a d : RInt (fun t => (1 - cos (a + t * 0)) * d) 0 1 = (1 - cos a) * d.
Proof.
  rewrite (RInt_ext _ (fun _ => (1 - cos a) * d)). 2: { intros t _. rewrite Rmult_0_r, Rplus_0_r. reflexivity. }
  rewrite RInt_const. cbn. unfold scal; cbn. unfold mult; cbn. ring.
Qed.
(** sin x lies between x - x^3/6 and x *)
Lemma sin_cubic x : 0 <= x -> x - x ^ 3 / 6 <= sin x.
Proof.
  intro Hx. destruct (Req_dec x 0) as [->|N]; [rewrite sin_0; lra|].
  assert (C : forall y, 0 <= y -> 1 - y ^ 2 / 2 <= cos y).
  { intros y Hy. replace y with (2 * (y / 2)) at 2 by field. rewrite cos_2a_sin. assert (S : Rabs (sin (y / 2)) <= Rabs (y / 2)).
    { destruct (Req_dec (y / 2) 0) as [->|N']; [rewrite sin_0; lra|]. assert (0 < y / 2) by lra. pose proof (sin_lt_x _ H). assert (- (y / 2) < sin (y / 2)).
      { assert (sin (- (y / 2)) < y / 2 \/ True) by auto. destruct (Rle_lt_dec (y / 2) PI). - pose proof (sin_ge_0 (y / 2)). lra. - pose proof (SIN_bound (y / 2)). pose proof PI2_3_2. lra. }
      rewrite (Rabs_right (y / 2)) by lra. apply Rabs_le. lra. }
    apply Rsqr_le_abs_1 in S. unfold Rsqr in S. nra. }
  destruct (MVT_gen (fun t => sin t - t + t ^ 3 / 6) 0 x (fun t => cos t - 1 + t ^ 2 / 2)) as [c [Hc E]].
  - intros t _. auto_derive; [exact I|]. field.
  - intros t _. apply derivable_continuous_pt. apply ex_derive_Reals_0. auto_derive. exact I.
  - rewrite sin_0 in E. rewrite Rmin_left, Rmax_right in Hc by lra. specialize (C c (proj1 Hc)). assert (0 <= (cos c - 1 + c ^ 2 / 2) * (x - 0)) by (apply Rmult_le_pos; lra). lra.
Qed.
Lemma sinc_bound h : h <> 0 -> Rabs (1 - sin h / h) <= h ^ 2 / 6.
Proof.
  intro N. assert (P : forall x, 0 < x -> Rabs (1 - sin x / x) <= x ^ 2 / 6).
  { intros x Hx. assert (A : sin x / x <= 1) by (apply (Rmult_le_reg_r x); [lra|]; unfold Rdiv; rewrite Rmult_assoc, Rinv_l by lra; pose proof (sin_lt_x x Hx); lra).
    assert (B : 1 - x ^ 2 / 6 <= sin x / x). { apply (Rmult_le_reg_r x); [lra|]. unfold Rdiv at 2. rewrite Rmult_assoc, Rinv_l by lra. pose proof (sin_cubic x (Rlt_le _ _ Hx)). replace ((1 - x ^ 2 / 6) * x) with (x - x ^ 3 / 6) by field. lra. }
    rewrite Rabs_right by lra. lra. }
  destruct (Rlt_le_dec 0 h) as [H|H]; [apply P, H|]. replace (sin h / h) with (sin (- h) / (- h)) by (rewrite sin_neg; field; exact N). replace (h ^ 2) with ((- h) ^ 2) by ring. apply P. lra.
Qed.
Lemma seg_swept p q s : swept p q s -> Rabs (seg p q - s) <= Rabs (wrap (az q - az p)) * (angular_distance q - angular_distance p) ^ 2 / 24.
Proof.
  intros [d [Hd ->]]. rewrite (change_wrap _ _ _ Hd). unfold seg. set (w := wrap _). set (a := angular_distance p). set (b := angular_distance q - a). destruct (Req_dec b 0) as [E|N].
  - rewrite E, const_int. replace (a + 0 / 2) with a by field. rewrite Rminus_eq_0, Rabs_R0. lra.
  - rewrite cos_int by exact N. replace ((1 - cos (a + b / 2)) * w - (1 - (sin (a + b) - sin a) / b) * w) with (- (cos (a + b / 2) * (1 - sin (b / 2) / (b / 2)) * w)).
    2: { rewrite (form4 (a + b) a). replace ((a + b - a) / 2) with (b / 2) by field. replace ((a + b + a) / 2) with (a + b / 2) by field. field. exact N. }
    rewrite Rabs_Ropp, !Rabs_mult. assert (H2 : b / 2 <> 0) by lra. pose proof (sinc_bound _ H2) as S. assert (C : Rabs (cos (a + b / 2)) <= 1) by (apply Rabs_le; apply COS_bound).
    replace (Rabs w * b ^ 2 / 24) with (1 * ((b / 2) ^ 2 / 6) * Rabs w) by field. apply Rmult_le_compat_r; [apply Rabs_pos|]. apply Rmult_le_compat; try apply Rabs_pos; assumption.
Qed.
Lemma segs_swept l : forall s e, swept_by l s -> coarseness l e -> Rabs (segs l - s) <= e / 24.
Proof.
  intros s e H. revert e. induction H as [|p|p q l s s' H1 H2 IH]; intros e C; inversion C; subst.
  - cbn. rewrite Rminus_eq_0, Rabs_R0. lra.
  - cbn. rewrite Rminus_eq_0, Rabs_R0. lra.
  - change (segs (p :: q :: l)) with (seg p q + segs (q :: l)). match goal with K : coarseness (q :: l) ?e0 |- _ => specialize (IH _ K) end. pose proof (seg_swept _ _ _ H1) as A.
    match goal with K : azimuth_change p q ?d |- _ => rewrite (change_wrap _ _ _ K) end.
    replace (seg p q + segs (q :: l) - (s + s')) with ((seg p q - s) + (segs (q :: l) - s')) by ring. eapply Rle_trans; [apply Rabs_triang|]. lra.
Qed.
Lemma swept_exists l : exists s e, swept_by l s /\ coarseness l e.
Proof.
  induction l as [|p [|q l] IH]; [exists 0, 0; split; constructor|exists 0, 0; split; constructor|]. destruct IH as [s [e [A B]]].
  eexists. eexists. split; [apply swept_more; [exists (wrap (az q - az p)); split; [apply wrap_change|reflexivity]|exact A]|apply coarse_more; [apply wrap_change|exact B]].
Qed.

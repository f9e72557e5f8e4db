(** C149: small noise in the field changes neither which sides of the grid the contours cross nor how they are joined. *)
From Coq Require Import Lia Reals Lra.
From Verif Require Import M_Base M_Cntr M_Extract S_Cntr S_Lines S_Noise L_Cntr2 L_Cntr7 L_Extract L_Lines P_Cntr P_Lines.
Local Open Scope R_scope.

Lemma Rabs_le_inv a b : Rabs a <= b -> - b <= a <= b.
Proof. unfold Rabs. destruct (Rcase_abs a); lra. Qed.
Lemma Rgtb_kept a a' l eps : Rabs (a' - a) <= eps -> eps < Rabs (a - l) -> Rgtb a' l = Rgtb a l.
Proof. unfold Rabs, Rgtb. destruct (Rcase_abs (a' - a)), (Rcase_abs (a - l)); intros H1 H2; destruct (Rlt_dec l a'), (Rlt_dec l a); try reflexivity; exfalso; lra. Qed.
Lemma over_iff a l : Rgtb a l = true <-> l < a.
Proof. unfold Rgtb. destruct (Rlt_dec l a); split; intro; try lra; try reflexivity; discriminate. Qed.
Lemma not_over a l : Rgtb a l = false <-> ~ l < a.
Proof. unfold Rgtb. destruct (Rlt_dec l a); split; intro; try lra; try reflexivity; try discriminate. Qed.
Lemma saddle_of z level q : ambiguous (m_cols R z) (above_of R Rgtb z level) q -> saddle z level q.
Proof.
  unfold ambiguous, above_of, saddle, corner. cbv zeta. generalize (m_at R z (fst q + 0 + (snd q + 0) * m_cols R z)%Z) (m_at R z (fst q + 1 + (snd q + 0) * m_cols R z)%Z) (m_at R z (fst q + 0 + (snd q + 1) * m_cols R z)%Z) (m_at R z (fst q + 1 + (snd q + 1) * m_cols R z)%Z). intros a b c d.
  unfold Rgtb. destruct (Rlt_dec level a), (Rlt_dec level b), (Rlt_dec level c), (Rlt_dec level d); intros [H1 [H2 H3]]; try congruence; tauto.
Qed.
Lemma mean_kept z z' level eps q : noisy z z' eps -> clear_of z level eps -> is_cell (m_cols R z) (m_rows R z) q -> ambiguous (m_cols R z) (above_of R Rgtb z level) q -> mean_above z' level q = mean_above z level q.
Proof.
  intros N C Cq A. unfold mean_above. rewrite (nz_cols _ _ _ N). set (w := m_cols R z) in *.
  apply (Rgtb_kept _ _ _ eps).
  - pose proof (nz_values _ _ _ N) as V. fold w in V. assert (L0 : (0 <= 0 <= 1)%Z) by lia. assert (L1 : (0 <= 1 <= 1)%Z) by lia.
    pose proof (V _ (corner_mesh w (m_rows R z) q 0 0 Cq L0 L0)) as V1. pose proof (V _ (corner_mesh w (m_rows R z) q 1 0 Cq L1 L0)) as V2. pose proof (V _ (corner_mesh w (m_rows R z) q 0 1 Cq L0 L1)) as V3. pose proof (V _ (corner_mesh w (m_rows R z) q 1 1 Cq L1 L1)) as V4.
    clear - V1 V2 V3 V4. apply Rabs_le_inv in V1, V2, V3, V4. apply Rabs_le. destruct V1, V2, V3, V4. split; lra.
  - exact (co_means _ _ _ C q Cq (saddle_of _ _ _ A)).
Qed.
Section Noise.
Variables x y z z' : mat R.
Variables level eps : R.
Hypothesis N : noisy z z' eps.
Hypothesis C : clear_of z level eps.
Lemma above_kept k : S_Cntr.in_mesh (m_cols R z) (m_rows R z) k -> above_of R Rgtb z' level k = above_of R Rgtb z level k.
Proof using N C. intro H. apply (Rgtb_kept _ _ _ eps); [apply (nz_values _ _ _ N), H|apply (co_values _ _ _ C), H]. Qed.
Lemma ambiguous_kept q : is_cell (m_cols R z) (m_rows R z) q -> ambiguous (m_cols R z) (above_of R Rgtb z' level) q <-> ambiguous (m_cols R z) (above_of R Rgtb z level) q.
Proof using N C. intro Cq. unfold ambiguous. rewrite !above_kept by (apply corner_mesh; [exact Cq|lia|lia]). tauto. Qed.
Lemma side_ends q e : side_of_cell (m_cols R z) (m_rows R z) q e -> S_Cntr.in_mesh (m_cols R z) (m_rows R z) (fst e) /\ S_Cntr.in_mesh (m_cols R z) (m_rows R z) (snd e).
Proof. intros [_ [S _]]. destruct e; destruct S as [X [Y _]]; auto. Qed.
Lemma joined_kept e f : joined (m_cols R z) (m_rows R z) (above_of R Rgtb z' level) (mean_above z' level) e f <-> joined (m_cols R z) (m_rows R z) (above_of R Rgtb z level) (mean_above z level) e f.
Proof using N C.
  split; intros [D [C1 [C2 [q [Q1 [Q2 Am]]]]]]; destruct (side_ends _ _ Q1) as [Me1 Me2]; destruct (side_ends _ _ Q2) as [Mf1 Mf2]; unfold crossed in *.
  - rewrite !above_kept in C1 by assumption. rewrite !above_kept in C2 by assumption. split; [exact D|]. split; [exact C1|]. split; [exact C2|]. exists q. split; [exact Q1|]. split; [exact Q2|].
    intro A. destruct (Am (proj2 (ambiguous_kept q (proj1 Q1)) A)) as [p [P1 [P2 P3]]]. exists p. split; [exact P1|]. split; [exact P2|]. rewrite <- (mean_kept z z' level eps q N C (proj1 Q1) A), <- P3. symmetry. apply above_kept. destruct P1 as [-> | ->]; assumption.
  - split; [exact D|]. unfold crossed. rewrite !above_kept by assumption. split; [exact C1|]. split; [exact C2|]. exists q. split; [exact Q1|]. split; [exact Q2|].
    intro A. apply (ambiguous_kept q (proj1 Q1)) in A. destruct (Am A) as [p [P1 [P2 P3]]]. exists p. split; [exact P1|]. split; [exact P2|]. rewrite (mean_kept z z' level eps q N C (proj1 Q1) A), <- P3. apply above_kept. destruct P1 as [-> | ->]; assumption.
Qed.
(** The two crossings of one side *)
Lemma crossings_close zp zq zp' zq' t t' : Rabs (zp' - zp) <= eps -> Rabs (zq' - zq) <= eps -> eps < Rabs (zp - level) -> eps < Rabs (zq - level) -> Rgtb zp level <> Rgtb zq level ->
  zp + t * (zq - zp) = level -> zp' + t' * (zq' - zp') = level -> 0 < t < 1 /\ 0 < t' < 1 /\ 2 * eps < Rabs (zq - zp) /\ Rabs (t' - t) <= eps / (Rabs (zq - zp) - 2 * eps).
Proof.
  intros H1 H2 H3 H4 H5 E E'. apply Rabs_le_inv in H1, H2.
  assert (K : forall a b a' b' s s', - eps <= a' - a <= eps -> - eps <= b' - b <= eps -> eps < a -> eps < b -> - a + s * (b + a) = 0 -> - a' + s' * (b' + a') = 0 -> 0 < s < 1 /\ 0 < s' < 1 /\ 2 * eps < b + a /\ Rabs (s' - s) <= eps / (b + a - 2 * eps)).
  { clear. intros a b a' b' s s' A B Pa Pb F F'. assert (Es : s = a / (a + b)) by (apply (Rmult_eq_reg_r (a + b)); [field_simplify; lra|lra]). assert (Es' : s' = a' / (a' + b')) by (apply (Rmult_eq_reg_r (a' + b')); [field_simplify; lra|lra]).
    assert (U : forall c d, 0 < c -> 0 < d -> 0 < c / (c + d) < 1) by (intros c d Hc Hd; split; [apply Rdiv_lt_0_compat; lra|]; apply (Rmult_lt_reg_r (c + d)); [lra|]; field_simplify; lra).
    split; [rewrite Es; apply U; lra|]. split; [rewrite Es'; apply U; lra|]. split; [lra|].
    assert (Ed : s' - s = ((a' - a) * b - (b' - b) * a) / ((a + b) * (a' + b'))) by (rewrite Es, Es'; field; lra). rewrite Ed. unfold Rdiv. rewrite Rabs_mult, (Rabs_pos_eq (/ _)) by (apply Rlt_le, Rinv_0_lt_compat, Rmult_lt_0_compat; lra).
    assert (Nn : Rabs ((a' - a) * b - (b' - b) * a) <= eps * (a + b)) by (apply Rabs_le; split; nra).
    apply Rle_trans with (eps * (a + b) * / ((a + b) * (a' + b'))); [apply Rmult_le_compat_r; [apply Rlt_le, Rinv_0_lt_compat, Rmult_lt_0_compat; lra|exact Nn]|].
    replace (eps * (a + b) * / ((a + b) * (a' + b'))) with (eps * / (a' + b')) by (field; lra). apply Rmult_le_compat_l; [lra|]. apply Rinv_le_contravar; lra. }
  unfold Rgtb in H5. destruct (Rlt_dec level zp) as [L|L], (Rlt_dec level zq) as [L'|L']; try (exfalso; apply H5; reflexivity).
  - rewrite Rabs_pos_eq in H3 by lra. rewrite Rabs_left1 in H4 by lra. rewrite (Rabs_left1 (zq - zp)) by lra. destruct (K (zp - level) (level - zq) (zp' - level) (level - zq') t t') as [K1 [K2 [K3 K4]]]; try lra.
    replace (- (zq - zp)) with (level - zq + (zp - level)) by ring. auto.
  - rewrite Rabs_left1 in H3 by lra. rewrite Rabs_pos_eq in H4 by lra. rewrite (Rabs_pos_eq (zq - zp)) by lra. destruct (K (level - zp) (zq - level) (level - zp') (zq' - level) t t') as [K1 [K2 [K3 K4]]]; try lra.
    replace (zq - zp) with (zq - level + (level - zp)) by ring. auto.
Qed.
Lemma moved_on q e u u' : side_of_cell (m_cols R z) (m_rows R z) q e -> crossed (above_of R Rgtb z level) e -> meets x y z level e u -> meets x y z' level e u' -> moved x y z z' level eps u u'.
Proof using N C.
  intros Q Cr [t [E B]] [t' [E' B']]. destruct (side_ends _ _ Q) as [M1 M2]. destruct Q as [_ [Sd _]]. destruct e as [a b]. cbn [fst snd] in *. unfold crossed, above_of in Cr. cbn [fst snd] in Cr. unfold between in B, B'.
  destruct (crossings_close (m_at R z a) (m_at R z b) (m_at R z' a) (m_at R z' b) t t') as [K1 [K2 [K3 K4]]]; try assumption; try (apply (nz_values _ _ _ N); assumption); try (apply (co_values _ _ _ C); assumption).
  exists a, b, t, t'. repeat (split; [assumption|]). exact K4.
Qed.
Lemma crossed_kept q e : side_of_cell (m_cols R z) (m_rows R z) q e -> crossed (above_of R Rgtb z level) e -> crossed (above_of R Rgtb z' level) e.
Proof using N C. intros Q Cr. destruct (side_ends _ _ Q) as [M1 M2]. unfold crossed in *. rewrite !above_kept by assumption. exact Cr. Qed.
End Noise.

(** When every value, and the mean of every cell in which the values do not decide, is further from the level than the noise, the contours with and without the noise
    consist of corresponding lines: every line of the one goes between the same two sides of the grid as a line of the other, none is missing and none is added, and
    the ends of each line moved along their sides by no more than the noise allows. *)
Theorem C149_small_noise : forall fuel mem fuel' mem' x y z z' level eps s c s' c', meshed x y z -> enough z fuel -> enough z fuel' -> noisy z z' eps -> clear_of z level eps ->
  extractR fuel mem x y z level = Ok (s, c) -> extractR fuel' mem' x y z' level = Ok (s', c') ->
  (forall u v, line s u v -> exists u' v', line s' u' v' /\ moved x y z z' level eps u u' /\ moved x y z z' level eps v v') /\
  (forall u' v', line s' u' v' -> exists u v, line s u v /\ moved x y z z' level eps u u' /\ moved x y z z' level eps v v').
Proof.
  intros fuel mem fuel' mem' x y z z' level eps s c s' c' M F F' N C E E'.
  assert (M' : meshed x y z') by (unfold meshed in *; rewrite (nz_rows _ _ _ N), (nz_cols _ _ _ N); exact M). assert (F2 : enough z' fuel') by (unfold enough in *; rewrite (nz_rows _ _ _ N), (nz_cols _ _ _ N); exact F').
  split.
  - intros u v L. apply (C103_lines_drawn _ _ _ _ _ _ _ _ M F E) in L as [e [f [J [Hu Hv]]]]. pose proof J as [D [C1 [C2 [q [Q1 [Q2 _]]]]]].
    pose proof (vertex_meets x y z' level e (crossed_kept z z' level eps N C q e Q1 C1)) as Hu'. pose proof (vertex_meets x y z' level f (crossed_kept z z' level eps N C q f Q2 C2)) as Hv'.
    exists (vertex R Rplus Rminus Rmult Rdiv x y z' level e), (vertex R Rplus Rminus Rmult Rdiv x y z' level f).
    split; [|split; [apply (moved_on x y z z' level eps N C q e)|apply (moved_on x y z z' level eps N C q f)]; assumption].
    apply (C103_lines_drawn _ _ _ _ _ _ _ _ M' F2 E'). exists e, f. split; [|split; assumption].
    rewrite (nz_rows _ _ _ N), (nz_cols _ _ _ N). apply (joined_kept z z' level eps N C), J.
  - intros u' v' L. apply (C103_lines_drawn _ _ _ _ _ _ _ _ M' F2 E') in L as [e [f [J [Hu' Hv']]]]. rewrite (nz_rows _ _ _ N), (nz_cols _ _ _ N) in J. apply (joined_kept z z' level eps N C) in J. pose proof J as [D [C1 [C2 [q [Q1 [Q2 _]]]]]].
    pose proof (vertex_meets x y z level e C1) as Hu. pose proof (vertex_meets x y z level f C2) as Hv.
    exists (vertex R Rplus Rminus Rmult Rdiv x y z level e), (vertex R Rplus Rminus Rmult Rdiv x y z level f).
    split; [|split; [apply (moved_on x y z z' level eps N C q e)|apply (moved_on x y z z' level eps N C q f)]; assumption].
    apply (C103_lines_drawn _ _ _ _ _ _ _ _ M F E). exists e, f. split; [exact J|split; assumption].
Qed.
Print Assumptions C149_small_noise.

(** The hypotheses are met: one cell with high values at two opposite corners; the noise is 1/2 at one corner *)
Definition oneX : mat R := mkMat R 2 2 (fun k => if (k =? 1)%Z || (k =? 3)%Z then 1 else 0).
Definition oneY : mat R := mkMat R 2 2 (fun k => if (k =? 2)%Z || (k =? 3)%Z then 1 else 0).
Definition oneZ : mat R := mkMat R 2 2 (fun k => if (k =? 0)%Z || (k =? 3)%Z then 4 else 0).
Definition oneZ' : mat R := mkMat R 2 2 (fun k => if (k =? 0)%Z then 7 / 2 else if (k =? 3)%Z then 4 else 0).
Lemma one_meshed : meshed oneX oneY oneZ /\ meshed oneX oneY oneZ'. Proof. unfold meshed. cbn. lia. Qed.
Lemma one_noisy : noisy oneZ oneZ' (1 / 2).
Proof.
  constructor; [reflexivity..|]. intros k _. cbn [oneZ oneZ' m_at]. destruct (k =? 0)%Z; cbn [orb]; [|destruct (k =? 3)%Z]; apply Rabs_le; lra.
Qed.
Example C149_case : noisy oneZ oneZ' (1 / 2) /\ clear_of oneZ 1 (1 / 2) /\ saddle oneZ 1 (0, 0)%Z /\ forall fuel mem, enough oneZ fuel ->
  (exists s c, extractR fuel mem oneX oneY oneZ 1 = Ok (s, c)) /\ (exists s c, extractR fuel mem oneX oneY oneZ' 1 = Ok (s, c)).
Proof.
  split; [apply one_noisy|]. split; [|split; [left; cbn; lra|]].
  - constructor; cbn [oneZ m_cols m_rows m_at].
    + intros k _. destruct ((k =? 0) || (k =? 3))%Z; unfold Rabs; destruct (Rcase_abs _); lra.
    + intros q Cq _. assert (Q : q = (0, 0)%Z) by (destruct q as [a b]; unfold is_cell in Cq; cbn [fst snd] in Cq; f_equal; lia). rewrite Q. unfold cell_mean. cbn. unfold Rabs. destruct (Rcase_abs _); lra.
  - intros fuel mem F. split; [exact (C64_tracing_stays_inside_the_arrays R Rplus Rminus Rmult Rdiv 4 Rgtb Reqb fuel mem oneX oneY oneZ 1 (proj1 one_meshed) F)|exact (C64_tracing_stays_inside_the_arrays R Rplus Rminus Rmult Rdiv 4 Rgtb Reqb fuel mem oneX oneY oneZ' 1 (proj2 one_meshed) F)].
Qed.
(** It is not enough that the level is further than the noise from every value.  In the same cell at level 19/10 the noise moves the mean, from 2 to 15/8, across the
    level: with the noise no line goes from the lower to the right side any more. *)
Theorem C149_means_matter : forall fuel mem s c s' c', enough oneZ fuel -> extractR fuel mem oneX oneY oneZ (19 / 10) = Ok (s, c) -> extractR fuel mem oneX oneY oneZ' (19 / 10) = Ok (s', c') ->
  noisy oneZ oneZ' (1 / 2) /\ (forall k, 1 / 2 < Rabs (m_at R oneZ k - 19 / 10)) /\
  line s (21 / 40, 0) (1, 19 / 40) /\ forall a b, 0 < a < 1 -> 0 < b < 1 -> ~ line s' (a, 0) (1, b).
Proof.
  intros fuel mem s c s' c' F E E'. split; [apply one_noisy|]. split; [intro k; cbn [oneZ m_at]; destruct ((k =? 0) || (k =? 3))%Z; unfold Rabs; destruct (Rcase_abs _); lra|].
  assert (A : forall k, above_of R Rgtb oneZ (19 / 10) k = ((k =? 0) || (k =? 3))%Z) by (intro k; unfold above_of; cbn [oneZ m_at]; destruct ((k =? 0) || (k =? 3))%Z; [apply Rgtb_true|apply Rgtb_false]; lra).
  assert (A' : forall k, above_of R Rgtb oneZ' (19 / 10) k = ((k =? 0) || (k =? 3))%Z) by (intro k; unfold above_of; cbn [oneZ' m_at]; destruct (k =? 0)%Z; cbn [orb]; [apply Rgtb_true; lra|]; destruct (k =? 3)%Z; [apply Rgtb_true|apply Rgtb_false]; lra).
  assert (Mm : mean_above oneZ (19 / 10) (0, 0)%Z = true) by (apply Rgtb_true; cbn; lra). assert (Mm' : mean_above oneZ' (19 / 10) (0, 0)%Z = false) by (apply Rgtb_false; cbn; lra).
  split.
  - apply (C103_lines_drawn _ _ _ _ _ _ _ _ (proj1 one_meshed) F E). exists (0, 1)%Z, (1, 3)%Z. split; [|split].
    + split; [intros [X|X]; discriminate|]. unfold crossed. rewrite !A. split; [discriminate|]. split; [discriminate|]. exists (0, 0)%Z. cbn [oneZ m_cols m_rows].
      split; [unfold side_of_cell, is_cell, side, S_Cntr.in_mesh, point_of_cell, row_of, col_of; cbn; lia|]. split; [unfold side_of_cell, is_cell, side, S_Cntr.in_mesh, point_of_cell, row_of, col_of; cbn; lia|].
      intros _. exists 1%Z. split; [right; reflexivity|]. split; [left; reflexivity|]. change (mkMat _ _ _ _) with oneZ. rewrite Mm, A. reflexivity.
    + exists (21 / 40). unfold between. cbn. split; [lra|f_equal; lra].
    + exists (19 / 40). unfold between. cbn. split; [lra|f_equal; lra].
  - intros a b Ha Hb L. assert (F2 : enough oneZ' fuel) by exact F. apply (C103_lines_drawn _ _ _ _ _ _ _ _ (proj2 one_meshed) F2 E') in L as [e [f [J [Hu Hv]]]].
    destruct J as [D [C1 [C2 [q [Q1 [Q2 Am]]]]]]. assert (Q : q = (0, 0)%Z) by (destruct Q1 as [Cq _]; destruct q as [i j]; unfold is_cell in Cq; cbn [fst snd oneZ' m_cols m_rows] in Cq; f_equal; lia). subst q.
    assert (Ab : ambiguous (m_cols R oneZ') (above_of R Rgtb oneZ' (19 / 10)) (0, 0)%Z) by (unfold ambiguous; rewrite !A'; cbn; repeat split; congruence). destruct (Am Ab) as [p [P1 [P2 P3]]]. rewrite Mm', A' in P3. cbn [negb] in P3.
    destruct Q1 as [_ [S1 _]], Q2 as [_ [S2 _]]. destruct e as [e1 e2], f as [f1 f2]. unfold side, S_Cntr.in_mesh in S1, S2. unfold crossed in C1, C2. rewrite !A' in C1, C2. cbn [fst snd oneZ' m_cols m_rows] in *.
    destruct Hu as [t [_ Hu]], Hv as [t' [_ Hv]]. unfold between in Hu, Hv. cbn [fst snd] in Hu, Hv. injection Hu as U1 U2. injection Hv as V1 V2.
    assert (T : (p = 0 \/ p = 3)%Z) by (apply orb_true_iff in P3 as [P3|P3]; apply Z.eqb_eq in P3; auto).
    assert (K : forall i j, (0 <= i < 2 * 2)%Z -> (0 <= j < 2 * 2)%Z -> ((i =? 0) || (i =? 3))%Z <> ((j =? 0) || (j =? 3))%Z -> (p = i \/ p = j) -> forall r u v, u = m_at R oneX i + r * (m_at R oneX j - m_at R oneX i) -> v = m_at R oneY i + r * (m_at R oneY j - m_at R oneY i) -> (p = 0%Z /\ (u = 0 \/ v = 0)) \/ (p = 3%Z /\ (u = 1 \/ v = 1))).
    { clear - T. intros i j Hi Hj Hc Hp r u v Eu Ev. assert (Ei : (i = 0 \/ i = 1 \/ i = 2 \/ i = 3)%Z) by lia. assert (Ej : (j = 0 \/ j = 1 \/ j = 2 \/ j = 3)%Z) by lia.
      destruct Ei as [-> | [-> | [-> | ->]]], Ej as [-> | [-> | [-> | ->]]]; cbn in Hc; try congruence; cbn in Eu, Ev; destruct T as [T|T]; destruct Hp as [Hp|Hp]; try lia; (left; split; [lia|]; ((left; lra) || (right; lra))) || (right; split; [lia|]; ((left; lra) || (right; lra))). }
    destruct (K e1 e2 ltac:(lia) ltac:(lia) C1 P1 t a 0 U1 U2) as [[Z1 Y1]|[Z1 Y1]]; destruct (K f1 f2 ltac:(lia) ltac:(lia) C2 P2 t' 1 b V1 V2) as [[Z2 Y2]|[Z2 Y2]]; try lia; lra.
Qed.
Print Assumptions C149_means_matter.

(** The tracer looks for the next start mark in order *)
From Coq Require Import Lia Sorting.Sorted.
From Verif Require Import M_Base M_Cntr L_Cntr1 L_Cntr2.

Section Search.
Variables imax jmax : Z.
Variable above : Z -> bool.
Variable centre : Z -> Z -> Z -> Z -> bool.
Hypothesis I2 : 2 <= imax.
Hypothesis J2 : 2 <= jmax.
Notation nreg := (nreg imax jmax).
Notation ijmax := (ijmax imax jmax).
Notation flat := (flat imax).
Notation high := (high imax above).
Notation ix := (ix imax).
Notation lfo := (lfo imax).
Notation grid := (grid imax jmax).
Notation edge_ok := (edge_ok imax jmax).
Notation valid := (valid imax jmax).
Notation validb := (validb imax jmax).
Notation cut := (cut high).
Notation col := (col high).
Notation mk := (mk imax).
Notation op := (op imax).
Notation wf := (wf imax jmax above).
Notation all_sites := (all_sites imax jmax).

Definition rank (d : dir) : Z := match d with Ri => 0 | Le => 1 | Up => 2 | Dn => 3 end.
Definition pos (s : site) : Z := 4 * ix s + rank (sd s).
Lemma rank_range d : 0 <= rank d <= 3. Proof. destruct d; cbn; lia. Qed.
Lemma rank_inj d e : rank d = rank e -> d = e. Proof. destruct d, e; cbn; intro; try reflexivity; lia. Qed.
Lemma pos_inj s t : grid s -> grid t -> pos s = pos t -> s = t.
Proof. intros A B E. unfold pos in E. pose proof (rank_range (sd s)). pose proof (rank_range (sd t)). apply (ix_dec imax jmax I2); [exact A|exact B|lia|]. apply rank_inj. lia. Qed.
Definition after (h : option site) (s : site) : Prop := match h with None => True | Some c => pos c < pos s end.
Definition afterb (h : option site) (s : site) : bool := match h with None => true | Some c => pos c <? pos s end.
Lemma afterb_spec h s : afterb h s = true <-> after h s.
Proof. destruct h; cbn; [apply Z.ltb_lt|tauto]. Qed.
Definition at_here (t : tracer) (h : option site) : Prop :=
  match h with None => t_edge0 t = 0 /\ t_left0 t = 0 | Some c => t_edge0 t = ix c /\ t_left0 t = lfo (sd c) /\ grid c /\ 0 < ix c end.
(** Where there can be a start mark *)
Definition start (s : site) : Prop := valid s /\ cut s /\ (~ valid (flip s) \/ isj (sd s) = false /\ col s = true).
Lemma start_ix s : start s -> 0 < ix s < ijmax /\ grid s.
Proof.
  intros [V _]. pose proof (edge_grid imax jmax s (valid_edge imax jmax s V)) as G. pose proof (grid_ix imax jmax I2 J2 s G) as B. split; [|exact G]. unfold L_Cntr2.ix in *. unfold L_Cntr1.valid in V. unfold L_Cntr2.grid in G. destruct s as [x y []]; cbn in *; nia.
Qed.
Lemma sites_in s : In s all_sites <-> grid s. Proof. exact (all_sites_in imax jmax I2 J2 s). Qed.
Definition cnt (f : site -> bool) : Z := Z.of_nat (length (filter f all_sites)).
Lemma cnt_pos f s : grid s -> f s = true -> 0 < cnt f.
Proof. intros G H. unfold cnt. assert (I : In s (filter f all_sites)) by (apply filter_In; split; [apply sites_in; assumption|exact H]). destruct (filter f all_sites); [destruct I|cbn [length]; lia]. Qed.
Lemma cnt_some f : 0 < cnt f -> exists s, grid s /\ f s = true.
Proof. unfold cnt. destruct (filter f all_sites) as [|s l] eqn:E; [cbn [length]; lia|]. intros _. exists s. assert (I : In s (filter f all_sites)) by (rewrite E; left; reflexivity). apply filter_In in I as [I H]. split; [apply sites_in in I; exact I|exact H]. Qed.
Lemma cnt_zero f s : cnt f <= 0 -> grid s -> f s = false.
Proof. intros C G. destruct (f s) eqn:E; [|reflexivity]. pose proof (cnt_pos f s G E). lia. Qed.
Lemma cnt_ext f g : (forall s, grid s -> f s = g s) -> cnt f = cnt g.
Proof. intro H. unfold cnt. do 2 f_equal. apply filter_ext_in. intros s Hs. apply H. apply sites_in in Hs. exact Hs. Qed.
Lemma cnt_less f g s : grid s -> f s = true -> g s = false -> (forall u, grid u -> u <> s -> g u = f u) -> cnt f = cnt g + 1.
Proof. intros G F H E. unfold cnt. rewrite (filter_less f g s); [lia|apply NoDup_nodup|apply sites_in; assumption|exact F|exact H|]. intros y Hy. apply E. apply sites_in in Hy. exact Hy. Qed.
Lemma cnt_split f g : cnt f = cnt (fun s => f s && g s)%bool + cnt (fun s => f s && negb (g s))%bool.
Proof. unfold cnt. induction all_sites as [|s l IH]; [reflexivity|]. cbn. destruct (f s), (g s); cbn [length andb negb]; lia. Qed.
Lemma cnt_nonneg f : 0 <= cnt f. Proof. unfold cnt. lia. Qed.
Lemma kount_cnt d : kount imax jmax d = cnt (mk d). Proof. reflexivity. Qed.
(** The first mark after a place *)
Definition is_next (d : Z -> cell) (h : option site) (s : site) : Prop := grid s /\ mk d s = true /\ after h s /\ forall u, grid u -> mk d u = true -> after h u -> pos s <= pos u.
Lemma least (l : list site) : l <> [] -> exists s, In s l /\ forall u, In u l -> pos s <= pos u.
Proof.
  induction l as [|x l IH]; [congruence|]. intros _. destruct l as [|y l]; [exists x; split; [left; reflexivity|intros u [<-|[]]; lia]|]. destruct IH as [s [I H]]; [discriminate|]. destruct (Z.le_gt_cases (pos x) (pos s)).
  - exists x. split; [left; reflexivity|]. intros u [<-|Hu]; [lia|]. specialize (H u Hu). lia.
  - exists s. split; [right; exact I|]. intros u [<-|Hu]; [lia|auto].
Qed.
Lemma next_exists d h : 0 < cnt (fun s => mk d s && afterb h s)%bool -> exists s, is_next d h s.
Proof.
  intro C. set (f := fun s => (mk d s && afterb h s)%bool) in *. destruct (least (filter f all_sites)) as [s [I H]].
  - unfold cnt in C. destruct (filter f all_sites); [cbn in C; lia|discriminate].
  - apply filter_In in I as [I E]. apply sites_in in I. unfold f in E. apply andb_true_iff in E as [M A]. apply afterb_spec in A. exists s. split; [exact I|]. split; [exact M|]. split; [exact A|]. intros u Gu Mu Au. apply H. apply filter_In. split; [apply sites_in; assumption|]. unfold f. rewrite Mu. apply afterb_spec in Au. exact Au.
Qed.
Lemma seek_ok d bit st : 0 < st -> forall m fuel e, (m < fuel)%nat -> 0 <= e -> e + Z.of_nat m * st < nreg -> bit (d (e + Z.of_nat m * st)) = true ->
  exists m', (m' <= m)%nat /\ bit (d (e + Z.of_nat m' * st)) = true /\ seek imax jmax fuel d bit st e = Ok (e + Z.of_nat m' * st) /\ forall i, (i < m')%nat -> bit (d (e + Z.of_nat i * st)) = false.
Proof.
  intro St. induction m as [|m IH]; intros fuel e Fu E B H; (destruct fuel as [|fuel]; [lia|]); cbn [seek].
  - rewrite Z.mul_0_l, Z.add_0_r in *. rewrite get_ok by lia. rewrite bind_Ok, H. exists 0%nat. rewrite Z.mul_0_l, Z.add_0_r. split; [lia|]. split; [exact H|]. split; [reflexivity|]. intros i Hi. lia.
  - rewrite get_ok by nia. rewrite bind_Ok. destruct (bit (d e)) eqn:Be.
    + exists 0%nat. rewrite Z.mul_0_l, Z.add_0_r. split; [lia|]. split; [exact Be|]. split; [reflexivity|]. intros i Hi. lia.
    + destruct (IH fuel (e + st)) as [m' [Lm [Hm [Sk Nm]]]]; [lia|lia|rewrite Nat2Z.inj_succ in B; lia|replace (e + st + Z.of_nat m * st) with (e + Z.of_nat (S m) * st) by lia; exact H|].
      exists (S m'). replace (e + Z.of_nat (S m') * st) with (e + st + Z.of_nat m' * st) by lia. split; [lia|]. split; [exact Hm|]. split; [exact Sk|]. intros i Hi. destruct i as [|i]; [rewrite Z.mul_0_l, Z.add_0_r; exact Be|]. replace (e + Z.of_nat (S i) * st) with (e + st + Z.of_nat i * st) by lia. apply Nm. lia.
Qed.
Lemma any_start_site d k : 0 <= k < ijmax -> any_start (d k) = true <-> exists s, grid s /\ ix s = k /\ mk d s = true.
Proof.
  intro B. unfold any_start. rewrite !orb_true_iff. set (x := k mod imax). set (y := k / imax). assert (Hx : 0 <= x < imax) by (apply Z.mod_pos_bound; lia).
  assert (E : k = x + y * imax) by (unfold x, y; pose proof (Z.div_mod k imax); lia). assert (Hy : 0 <= y < jmax) by (unfold M_Cntr.ijmax in B; nia).
  assert (K : forall d, ix (mkS x y d) = k) by (intro; unfold L_Cntr2.ix; cbn; lia). assert (G : forall d, grid (mkS x y d)) by (intro; split; cbn; lia). split.
  - intros [[[H|H]|H]|H]; [exists (mkS x y Le)|exists (mkS x y Ri)|exists (mkS x y Dn)|exists (mkS x y Up)]; (split; [apply G|]; split; [apply K|]; unfold L_Cntr2.mk; rewrite K; exact H).
  - intros [s [_ [<- H]]]. unfold L_Cntr2.mk in H. destruct (sd s); cbn in H; auto.
Qed.
(** Does the present place have a further mark? *)
Lemma two_spec d c : two_starts imax (lfo (sd c)) (d (ix c)) = true <-> exists s, ix s = ix c /\ rank (sd c) < rank (sd s) /\ mk d s = true.
Proof.
  unfold two_starts. assert (K : forall e, ix (mkS (sx c) (sy c) e) = ix c) by reflexivity.
  destruct (sd c) eqn:Ec; cbn [L_Cntr2.lfo rank].
  - replace (-1 =? 1) with false by reflexivity. replace (-1 =? -1) with true by reflexivity. rewrite orb_true_iff. split.
    + intros [H|H]; [exists (mkS (sx c) (sy c) Up)|exists (mkS (sx c) (sy c) Dn)]; (split; [reflexivity|]); (split; [cbn; lia|exact H]).
    + intros [s [E [R H]]]. unfold L_Cntr2.mk in H. rewrite E in H. destruct (sd s); cbn in *; try lia; auto.
  - replace (1 =? 1) with true by reflexivity. rewrite !orb_true_iff. split.
    + intros [[H|H]|H]; [exists (mkS (sx c) (sy c) Le)|exists (mkS (sx c) (sy c) Up)|exists (mkS (sx c) (sy c) Dn)]; (split; [reflexivity|]); (split; [cbn; lia|exact H]).
    + intros [s [E [R H]]]. unfold L_Cntr2.mk in H. rewrite E in H. destruct (sd s); cbn in *; try lia; auto.
  - replace (imax =? 1) with false by (symmetry; apply Z.eqb_neq; lia). replace (imax =? -1) with false by (symmetry; apply Z.eqb_neq; lia). rewrite Z.eqb_refl. split.
    + intros H; exists (mkS (sx c) (sy c) Dn); (split; [reflexivity|]); (split; [cbn; lia|exact H]).
    + intros [s [E [R H]]]. unfold L_Cntr2.mk in H. rewrite E in H. destruct (sd s); cbn in *; try lia; auto.
  - replace (- imax =? 1) with false by (symmetry; apply Z.eqb_neq; lia). replace (- imax =? -1) with false by (symmetry; apply Z.eqb_neq; lia). replace (- imax =? imax) with false by (symmetry; apply Z.eqb_neq; lia). split; [discriminate|].
    intros [s [_ [R _]]]. pose proof (rank_range (sd s)). lia.
Qed.
Definition closing_of (d : Z -> cell) (s : site) : bool := (negb (isj (sd s)) && negb (c_ib (d (ix s))))%bool.
Lemma next_two d c s : grid c -> grid s -> is_next d (Some c) s -> two_starts imax (lfo (sd c)) (d (ix c)) = true -> forall fuel,
  next_start imax jmax fuel true (ix c) (lfo (sd c)) d = Ok (ix s, lfo (sd s), closing_of d s).
Proof.
  intros Gc Gs [_ [M [A L]]] Tw fuel. pose proof Tw as Tw'. apply two_spec in Tw as [u [Eu [Ru Mu]]]. cbn [after] in *.
  set (v := mkS (sx c) (sy c) (sd u)). assert (Mv : mk d v = true) by (unfold L_Cntr2.mk in *; rewrite Eu in Mu; exact Mu).
  assert (Ls : pos s <= pos v) by (apply L; [exact Gc|exact Mv|]; unfold pos, v, L_Cntr2.ix in *; cbn in *; lia).
  assert (Ev : pos v = 4 * ix c + rank (sd u)) by reflexivity.
  assert (Es : ix s = ix c) by (rewrite Ev in Ls; unfold pos in A, Ls; pose proof (rank_range (sd s)); pose proof (rank_range (sd u)); pose proof (rank_range (sd c)); lia).
  assert (Rs : rank (sd c) < rank (sd s)) by (unfold pos in A; lia).
  assert (Lo : forall e, rank (sd c) < rank e -> mark_of e (d (ix c)) = true -> rank (sd s) <= rank e).
  { intros e Re He. assert (Q : pos s <= pos (mkS (sx c) (sy c) e)) by (apply L; [exact Gc|exact He|unfold pos, L_Cntr2.ix; cbn; lia]). unfold pos in Q. rewrite Es in Q. unfold L_Cntr2.ix in Q. cbn in Q. lia. }
  unfold L_Cntr2.mk in M. rewrite Es in M. unfold next_start. rewrite get_ok by (apply grid_reg, grid_ix; assumption). rewrite bind_Ok. unfold closing_of. rewrite Es. clear Tw' Mv Mu Ls L A. revert Rs M Lo. clear - I2.
  destruct (sd c) eqn:Ec; cbn [L_Cntr2.lfo];
    repeat match goal with |- context [?x =? ?y] => destruct (Z.eqb_spec x y); try lia end; cbn [andb orb]; intros Rs M Lo.
  - destruct (c_j1 (d (ix c))) eqn:J.
    + specialize (Lo Up ltac:(cbn; lia) J). destruct (sd s); cbn in *; try lia; try congruence; try reflexivity.
    + destruct (sd s); cbn in *; try lia; try congruence; try reflexivity.
  - destruct (c_i0 (d (ix c))) eqn:J0; [specialize (Lo Le ltac:(cbn; lia) J0); destruct (sd s); cbn in *; try lia; reflexivity|]. destruct (c_j1 (d (ix c))) eqn:J.
    + specialize (Lo Up ltac:(cbn; lia) J). destruct (sd s); cbn in *; try lia; try congruence; try reflexivity.
    + destruct (sd s); cbn in *; try lia; try congruence; try reflexivity.
  - destruct (sd s); cbn in *; try lia; try congruence; try reflexivity.
  - destruct (sd s); cbn in *; lia.
Qed.
(** Searching from a place before the next mark *)
Lemma next_seek d h s place fuel l0 : is_next d h s -> 0 <= place <= ix s -> (forall u, grid u -> place <= ix u -> after h u) -> nreg < Z.of_nat fuel ->
  next_start imax jmax fuel false place l0 d = Ok (ix s, lfo (sd s), closing_of d s).
Proof.
  intros [G [M [A L]]] P H Fu. pose proof (grid_ix imax jmax I2 J2 s G) as B. unfold next_start.
  destruct (seek_ok d any_start 1 ltac:(lia) (Z.to_nat (ix s - place)) fuel place) as [m' [Lm [Hm [Sk _]]]]; [unfold M_Cntr.nreg in Fu; unfold M_Cntr.ijmax in B; lia|lia|unfold M_Cntr.nreg; unfold M_Cntr.ijmax in B; lia| |].
  { replace (place + Z.of_nat (Z.to_nat (ix s - place)) * 1) with (ix s) by lia. apply any_start_site; [exact B|]. exists s. auto. }
  assert (E : place + Z.of_nat m' * 1 = ix s).
  { destruct (Z.eq_dec (place + Z.of_nat m' * 1) (ix s)) as [E|N]; [exact E|]. exfalso. apply any_start_site in Hm as [u [Gu [Eu Mu]]]; [|lia]. pose proof (L u Gu Mu (H u Gu ltac:(lia))) as Q. unfold pos in Q. pose proof (rank_range (sd u)). pose proof (rank_range (sd s)). lia. }
  rewrite Sk, bind_Ok, E. rewrite get_ok by (apply grid_reg; [assumption|exact B]). rewrite bind_Ok. f_equal.
  assert (Lo : forall e, mark_of e (d (ix s)) = true -> rank (sd s) <= rank e).
  { intros e He. assert (Q : pos s <= pos (mkS (sx s) (sy s) e)) by (apply L; [exact G|exact He|apply H; [exact G|unfold L_Cntr2.ix in *; cbn; lia]]). unfold pos in Q. unfold L_Cntr2.ix in Q. cbn in Q. lia. }
  unfold L_Cntr2.mk in M. unfold closing_of. clear - M Lo. destruct (c_i1 (d (ix s))) eqn:J1; [specialize (Lo Ri J1); destruct (sd s); cbn in *; try lia; reflexivity|].
  destruct (c_i0 (d (ix s))) eqn:J0; [specialize (Lo Le J0); destruct (sd s); cbn in *; try lia; try congruence; reflexivity|].
  destruct (c_j1 (d (ix s))) eqn:J2; [specialize (Lo Up J2); destruct (sd s); cbn in *; try lia; try congruence; reflexivity|].
  destruct (sd s); cbn in *; try congruence; reflexivity.
Qed.
Lemma closing_spec d s : wf d -> start s -> (closing_of d s = true -> isj (sd s) = false /\ valid (flip s)) /\ (closing_of d s = false -> ~ valid (flip s)).
Proof.
  intros W St. destruct (start_ix s St) as [_ [Gx Gy]]. destruct (W _ _ Gx Gy) as [_ [Hi _]]. fold (ix s) in Hi. destruct St as [V [_ K]]. unfold closing_of. rewrite Hi. unfold L_Cntr1.valid in *. destruct s as [x y []]; cbn [isj sd sx sy flip opp zone_of fst snd negb andb] in *; split; intro H;
    try discriminate; try (destruct K as [K|[K _]]; [exact K|discriminate]); revert H; destruct (Z.eqb_spec x 0), (Z.eqb_spec x (imax - 1)); cbn; intro H; try discriminate; try (split; [reflexivity|]); lia.
Qed.
End Search.

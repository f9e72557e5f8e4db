(** Lemmas for C96. *)
From Verif Require Import M_Base M_Tables S_Tracking S_Motion L_Base L_Tables L_Track L_TrackProps P_Tracking.
Open Scope Z_scope.

Lemma steps_next t : 0 <= t -> steps 0 (t + 1) = steps 0 t ++ [t].
Proof.
  intro H. unfold steps. replace (Z.to_nat (t + 1 - 0)) with (S (Z.to_nat (t - 0))) by lia. rewrite seq_S, map_app. cbn [map]. do 2 f_equal. lia.
Qed.
Lemma history_next detect name t : 0 <= t -> history detect name (t + 1) = history detect name t ++ map (named name t) (found detect t).
Proof. intro H. unfold history. rewrite steps_next, flat_map_app by exact H. cbn [flat_map]. rewrite app_nil_r. reflexivity. Qed.
Lemma latest_perm rs rs' k p : Permutation rs rs' -> latest_position rs k p -> latest_position rs' k p.
Proof.
  intros P (r & A & B & C & D & E & F). exists r. split; [apply (Permutation_in _ P), A|]. repeat split; try assumption. intros r' H. apply F. apply (Permutation_in _ (Permutation_sym P)), H.
Qed.
Lemma contiguous_perm rs rs' n : Permutation rs rs' -> contiguous rs n -> contiguous rs' n.
Proof.
  intros P C i. rewrite <- (C i). split; intros (r & A & B); exists r; (split; [|exact B]); [apply (Permutation_in _ (Permutation_sym P)), A|apply (Permutation_in _ P), A].
Qed.
Lemma contiguous_unique rs n m : contiguous rs n -> contiguous rs m -> n = m.
Proof.
  intros A B. destruct (Nat.lt_trichotomy n m) as [H|[H|H]]; [|exact H|]; exfalso.
  - assert (X : 0 <= Z.of_nat n < Z.of_nat m) by lia. apply B in X. apply A in X. lia.
  - assert (X : 0 <= Z.of_nat m < Z.of_nat n) by lia. apply A in X. apply B in X. lia.
Qed.
(** A strictly increasing list of all numbers from n on is determined by its length. *)
Lemma run_from n l b : StronglySorted Z.lt l -> (forall x, In x l <-> n <= x < b) -> l = map (fun i => n + i) (zseq (length l)).
Proof.
  intros S H. assert (E : l = map (fun i => n + i) (zseq (Z.to_nat (b - n)))).
  { apply sorted_lt_ext; [exact S| |].
    - unfold zseq. rewrite map_map. apply sorted_lt_map_seq. intros i j Hij. lia.
    - intro x. rewrite H, in_map_iff. split.
      + intro Hx. exists (x - n). split; [lia|apply zseq_In; lia].
      + intros (i & <- & Hi). apply zseq_In in Hi. lia. }
  rewrite E at 2. rewrite map_length, zseq_length. exact E.
Qed.
Lemma sorted_map_on (f : Z -> Z) l : StronglySorted Z.lt l -> (forall a b, In a l -> In b l -> a < b -> f a < f b) -> StronglySorted Z.lt (map f l).
Proof.
  induction 1 as [|a l S IH F]; intro H; cbn [map]; constructor; [apply IH; intros; apply H; auto; right; assumption|]. rewrite Forall_map. rewrite Forall_forall in *. intros b Hb. apply H; [left; reflexivity|right; exact Hb|apply F, Hb].
Qed.
Lemma sorted_filter (f : Z -> bool) l : StronglySorted Z.lt l -> StronglySorted Z.lt (filter f l).
Proof.
  induction 1 as [|a l S IH F]; cbn; [constructor|]. destruct (f a); [|exact IH]. constructor; [exact IH|]. rewrite Forall_forall in *. intros b Hb. apply filter_In in Hb. apply F, Hb.
Qed.
Lemma one_step_table hav query keep detect fmt len nt f R : query_ok hav query -> detect 0 = Ok f -> rows f <> [] ->
  returns (time_tracking query keep detect true fmt len 0 (Some 1) nt) R -> Permutation (rows R) (map (at_time 0) (rows f)).
Proof.
  intros _ Hf Hn H. unfold returns, time_tracking, tt_times in H. change (1 =? 0) with false in H. cbv iota in H. change (zrange 0 1) with [0] in H. cbn [tt_loop] in H. rewrite Hf in H.
  unfold empty in H. destruct (rows f) as [|r l] eqn:E; [contradiction|]. cbn [rows empty_frame snd] in H. injection H as <-. cbn [set_index rows]. rewrite isort_perm. cbn [stamp set_index rows]. rewrite E. reflexivity.
Qed.
Lemma link_is_name hav query keep detect fmt len nt name t T R f : query_ok hav query -> 0 < t -> snapshots_ok detect 0 (t + 1) ->
  returns (time_tracking query keep detect true fmt len 0 (Some t) nt) T -> returns (time_tracking query keep detect true fmt len 0 (Some (t + 1)) nt) R ->
  detect t = Ok f -> rows f <> [] -> rows T <> [] -> distinct_eddies f -> Permutation (rows T) (history detect name t) -> resolved hav detect name t ->
  (exists n, contiguous (history detect name (t + 1)) n) ->
  (forall r r', In r (found detect t) -> In r' (found detect t) -> r_id r < r_id r' ->
    ~ known (history detect name t) (name t (r_id r)) -> ~ known (history detect name t) (name t (r_id r')) -> name t (r_id r) < name t (r_id r')) ->
  Permutation (rows R) (history detect name (t + 1)).
Proof.
  intros Hq Ht So HT HR Hf Hnf HnT De P Rs (n2 & C2) Ord. destruct (C05_link_iff_nearest_within_radius hav query Hq keep detect fmt len 0 t nt T R f) as (n & pos & g & Cn & Lp & PR & Lk & In_); try assumption; [lia|].
  assert (Fd : found detect t = rows f) by (unfold found; rewrite Hf; reflexivity). rewrite Fd in Ord. rewrite history_next in * by lia. rewrite Fd in *.
  assert (Ch : contiguous (history detect name t) n) by (eapply contiguous_perm; eauto).
  destruct (So t) as (f' & Hf' & So'); [lia|]. rewrite Hf in Hf'. injection Hf' as <-. destruct So' as ((m & Cm) & Fp & _ & _).
  assert (Lh : forall k, 0 <= k < Z.of_nat n -> latest_position (history detect name t) k (pos k)) by (intros k Hk; eapply latest_perm; [exact P|apply Lp, Hk]).
  assert (Kn : forall k, known (history detect name t) k <-> 0 <= k < Z.of_nat n) by exact Ch.
  assert (Dec : forall r, In r (rows f) -> r_idx r = 0 -> (known (history detect name t) (name t (r_id r)) /\ g (r_id r) = name t (r_id r)) \/ (~ known (history detect name t) (name t (r_id r)) /\ Z.of_nat n <= g (r_id r))).
  { intros r Hr H0. destruct (Rs r) as (c & rad & Pc & Prad & A & B); [rewrite Fd; exact Hr|exact H0|]. cbn zeta in A, B. specialize (Lk r c rad Hr H0 Pc Prad). rewrite Kn in *.
    destruct (Z_le_dec 0 (name t (r_id r))) as [X1|X1]; [destruct (Z_lt_dec (name t (r_id r)) (Z.of_nat n)) as [X2|X2]|].
    - left. split; [lia|]. destruct (A (conj X1 X2) (pos (name t (r_id r))) (Lh _ (conj X1 X2))) as [Re Nr]. destruct Lk as [(k & Hk & Eg & _ & Near)|[_ Far]]; [|exfalso; apply (Far _ (conj X1 X2)), Re].
      destruct (Z.eq_dec k (name t (r_id r))) as [E|E]; [congruence|]. exfalso. specialize (Nr k (pos k) E (Lh k Hk)). specialize (Near _ (conj X1 X2)). apply (Qlt_irrefl (hav c (pos k))). eapply Qle_lt_trans; eassumption.
    - right. split; [lia|]. destruct Lk as [(k & Hk & _ & Re & _)|[Ge _]]; [|exact Ge]. exfalso. apply (B ltac:(lia) k (pos k) (Lh k Hk)), Re.
    - right. split; [lia|]. destruct Lk as [(k & Hk & _ & Re & _)|[Ge _]]; [|exact Ge]. exfalso. apply (B ltac:(lia) k (pos k) (Lh k Hk)), Re. }
  assert (Fst : forall a, 0 <= a < Z.of_nat m -> exists r, In r (rows f) /\ r_idx r = 0 /\ r_id r = a).
  { intros a Ha. apply Cm in Ha as (r & Hr & <-). destruct (Fp r Hr) as (r0 & H0 & E & _ & I). exists r0. auto. }
  destruct (C03_track_ids_contiguous hav query Hq keep detect fmt len 0 (t + 1) nt R) as (n1 & C1 & _); [lia|exact So|exact HR|].
  apply (contiguous_perm _ _ _ PR) in C1.
  set (new := fun a => negb ((0 <=? name t a) && (name t a <? Z.of_nat n))). set (L := filter new (zseq m)).
  assert (New : forall a, new a = true <-> ~ 0 <= name t a < Z.of_nat n).
  { intro a. unfold new. rewrite negb_true_iff, andb_false_iff, Z.leb_gt, Z.ltb_ge. lia. }
  assert (InL : forall a, In a L <-> 0 <= a < Z.of_nat m /\ ~ 0 <= name t a < Z.of_nat n) by (intro a; unfold L; rewrite filter_In, zseq_In, New; reflexivity).
  assert (SL : StronglySorted Z.lt L) by apply sorted_filter, zseq_sorted.
  assert (Eg : map g L = map (name t) L).
  { rewrite (run_from (Z.of_nat n) (map g L) (Z.of_nat n1)), (run_from (Z.of_nat n) (map (name t) L) (Z.of_nat n2)); [rewrite !map_length; reflexivity|..].
    - apply sorted_map_on; [exact SL|]. intros a b Ha Hb Hab. apply InL in Ha as [Ha Na], Hb as [Hb Nb]. destruct (Fst a Ha) as (r & Hr & Ir & Er). destruct (Fst b Hb) as (r' & Hr' & Ir' & Er').
      rewrite <- Er, <- Er'. apply Ord; [exact Hr|exact Hr'|lia|rewrite Kn; congruence|rewrite Kn; congruence].
    - intro x. rewrite in_map_iff. split.
      + intros (a & <- & Ha). apply InL in Ha as [Ha Na]. destruct (Fst a Ha) as (r & Hr & Ir & Er).
        assert (X : 0 <= name t a < Z.of_nat n2). { apply C2. exists (named name t r). split; [apply in_or_app; right; apply in_map, Hr|]. cbn. congruence. } lia.
      + intro Hx. assert (X : 0 <= x < Z.of_nat n2) by lia. apply C2 in X as (r & Hr & Er). apply in_app_or in Hr as [Hr|Hr].
        * exfalso. assert (X : 0 <= x < Z.of_nat n) by (apply Ch; eauto). lia.
        * apply in_map_iff in Hr as (r0 & <- & Hr0). cbn in Er. exists (r_id r0). split; [exact Er|]. apply InL. split; [apply Cm; eauto|lia].
    - apply sorted_map_on; [exact SL|]. intros a b Ha Hb Hab. apply InL in Ha as [Ha Na], Hb as [Hb Nb]. destruct (Fst a Ha) as (r & Hr & Ir & Er). destruct (Fst b Hb) as (r' & Hr' & Ir' & Er').
      destruct (Dec r Hr Ir) as [[K _]|[_ G1]]; [exfalso; rewrite Kn, Er in K; contradiction|]. destruct (Dec r' Hr' Ir') as [[K _]|[_ G2]]; [exfalso; rewrite Kn, Er' in K; contradiction|].
      rewrite <- Er, <- Er'. apply In_; [exact Hr|exact Hr'|lia|exact G1|exact G2].
    - intro x. rewrite in_map_iff. split.
      + intros (a & <- & Ha). apply InL in Ha as [Ha Na]. destruct (Fst a Ha) as (r & Hr & Ir & Er). destruct (Dec r Hr Ir) as [[K _]|[_ G1]]; [exfalso; rewrite Kn, Er in K; contradiction|].
        assert (X : 0 <= g a < Z.of_nat n1). { apply C1. exists (with_id (at_time t r) (g (r_id r))). split; [apply in_or_app; right; apply (in_map (fun r => with_id (at_time t r) (g (r_id r)))), Hr|]. cbn. congruence. } rewrite Er in G1. lia.
      + intro Hx. assert (X : 0 <= x < Z.of_nat n1) by lia. apply C1 in X as (r & Hr & Er). apply in_app_or in Hr as [Hr|Hr].
        * exfalso. assert (X : 0 <= x < Z.of_nat n) by (apply Cn; eauto). lia.
        * apply in_map_iff in Hr as (r0 & <- & Hr0). cbn in Er. exists (r_id r0). split; [exact Er|]. apply InL. assert (Hm : 0 <= r_id r0 < Z.of_nat m) by (apply Cm; eauto). split; [exact Hm|].
          destruct (Fst _ Hm) as (r1 & Hr1 & I1 & E1). destruct (Dec r1 Hr1 I1) as [[K Eq]|[K _]]; rewrite Kn, E1 in K; [|exact K]. rewrite E1 in Eq. lia. }
  assert (All : forall a, 0 <= a < Z.of_nat m -> g a = name t a).
  { intros a Ha. destruct (Fst a Ha) as (r & Hr & Ir & Er). destruct (Dec r Hr Ir) as [[_ E]|[K _]]; [congruence|]. rewrite Kn, Er in K.
    assert (Ia : In a L) by (apply InL; auto). clear -Eg Ia. induction L as [|b l IH]; [destruct Ia|]. cbn [map] in Eg. injection Eg as E1 E2. destruct Ia as [<-|Ia]; auto. }
  rewrite PR. apply Permutation_app; [exact P|]. erewrite map_ext_in; [reflexivity|]. intros r Hr. unfold named. rewrite All; [reflexivity|]. apply Cm. eauto.
Qed.
Lemma tracks_follow hav query keep detect fmt len nt name tf : query_ok hav query -> 1 <= nt -> snapshots_ok detect 0 tf ->
  (forall t f, 0 <= t < tf -> detect t = Ok f -> rows f <> [] /\ distinct_eddies f) -> named_in_order detect name tf -> (forall t, 0 < t < tf -> resolved hav detect name t) ->
  forall n, (0 < n)%nat -> Z.of_nat n <= tf -> exists R, returns (time_tracking query keep detect true fmt len 0 (Some (Z.of_nat n)) nt) R /\ Permutation (rows R) (history detect name (Z.of_nat n)).
Proof.
  intros Hq Hnt So Hd (N0 & Cg & Ord) Rs.
  assert (Ex : forall n, (0 < n)%nat -> Z.of_nat n <= tf -> exists R, returns (time_tracking query keep detect true fmt len 0 (Some (Z.of_nat n)) nt) R).
  { intros n Hn Hl. apply (C08_C09_success_condition hav query Hq); [lia|lia|exact Hnt|intros t Ht; apply So; lia|]. right. split; [reflexivity|]. exists (Z.of_nat n). intros t Ht. split; [intros _; lia|intros _].
    destruct (So t) as (f & Hf & _); [lia|]. exists f. split; [exact Hf|]. apply (Hd t f); [lia|exact Hf]. }
  induction n as [|n IH]; [lia|]. intros _ Hl. destruct (Ex (S n)) as (R & HR); [lia|exact Hl|]. exists R. split; [exact HR|].
  destruct n as [|n].
  - change (Z.of_nat 1) with 1 in *. destruct (So 0) as (f & Hf & _); [lia|]. rewrite (one_step_table hav query keep detect fmt len nt f R Hq Hf (proj1 (Hd 0 f ltac:(lia) Hf)) HR).
    unfold history. change (steps 0 1) with [0]. cbn [flat_map]. rewrite app_nil_r. unfold found. rewrite Hf. erewrite map_ext; [reflexivity|]. intro r. unfold named. rewrite N0. reflexivity.
  - destruct IH as (T & HT & PT); [lia|lia|]. replace (Z.of_nat (S (S n))) with (Z.of_nat (S n) + 1) in * by lia. set (t := Z.of_nat (S n)) in *. destruct (So t) as (f & Hf & _); [lia|]. destruct (Hd t f ltac:(lia) Hf) as [Hnf De].
    apply (link_is_name hav query keep detect fmt len nt name t T R f); try assumption; try lia.
    + intros s Hs. apply So. lia.
    + intro E. rewrite E in PT. apply Permutation_nil in PT. destruct (So 0) as (f0 & Hf0 & _); [lia|]. destruct (Hd 0 f0 ltac:(lia) Hf0) as [Hn0 _]. destruct (rows f0) as [|r l] eqn:E0; [contradiction|].
      assert (X : In (named name 0 r) (history detect name t)). { unfold history. apply in_flat_map. exists 0. split; [unfold steps; apply in_map_iff; exists 0%nat; split; [reflexivity|apply in_seq; lia]|]. apply in_map. unfold found. rewrite Hf0, E0. left. reflexivity. }
      rewrite PT in X. destruct X.
    + apply Rs. lia.
    + apply Cg. lia.
    + intros r r'. apply Ord. lia.
Qed.

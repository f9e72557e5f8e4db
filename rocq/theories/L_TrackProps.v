(** Properties of time_tracking in the form in which they are stated in P_Tracking. *)
From Coq Require Import ZifyBool ZifyNat Lqa.
From Verif Require Import M_Base M_Tables S_Tracking L_Base L_Tables L_Track L_Step L_Run L_Run2.
Open Scope Z_scope.

Section Props.
Variable hav : Q * Q -> Q * Q -> Q.
Variable query : list (Q * Q) -> list (Q * Q) -> list (Q * nat).
Hypothesis Hq : query_ok hav query.
Variable keep : bool.
Variable detect : Z -> res frame.
Variable fmt : string.
Variable len : Z.

Notation run t0 tf nt := (time_tracking query keep detect true fmt len t0 (Some tf) nt).

Lemma run_unfold t0 tf nt : tf <> 0 ->
  run t0 tf nt = tt_loop query keep detect true fmt (Some tf) nt (zrange t0 tf) empty_frame [].
Proof. intro H. unfold time_tracking, tt_times. destruct (tf =? 0) eqn:E; [lia|reflexivity]. Qed.

Lemma snapshots_good a b : snapshots_ok detect a b -> forall t, a <= t < b -> good detect t.
Proof. intros H t Ht f Hf. destruct (H t Ht) as (f' & E & Hs). congruence. Qed.
Lemma snapshots_Forall a b : snapshots_ok detect a b -> Forall (good detect) (zrange a b).
Proof. intro H. apply Forall_forall. intros t Ht. apply zrange_In in Ht. apply (snapshots_good a b H). exact Ht. Qed.

Lemma pc_ok tf t : tf <> 0 -> 0 <= t -> print_check (Some tf) t = Ok tt.
Proof. intros H1 H2. unfold print_check. destruct (tf =? 0) eqn:E1; destruct (t + 1 =? 0) eqn:E2; cbn; try reflexivity; lia. Qed.

Lemma returns_loop o R : returns o R -> exists files, o = (files, Ok R).
Proof. destruct o as [files r]. cbn. intro H. exists files. unfold returns in H. cbn in H. congruence. Qed.

Lemma found_snap t : found detect t = snap_rows detect t.
Proof. reflexivity. Qed.

(** prefix of a run *)
Lemma run_prefix t0 tf1 tf2 nt R2 : 0 <= t0 -> 0 < tf1 <= tf2 -> t0 <= tf1 ->
  returns (run t0 tf2 nt) R2 ->
  exists R1, returns (run t0 tf1 nt) R1 /\
    exists f1 f2, tt_loop query keep detect true fmt (Some tf2) nt (zrange t0 tf1) empty_frame [] = (f1, Ok R1) /\
      tt_loop query keep detect true fmt (Some tf2) nt (zrange tf1 tf2) R1 f1 = (f2, Ok R2).
Proof.
  intros H0 Htf Hle H. apply returns_loop in H. destruct H as (files & H). rewrite run_unfold in H by lia.
  rewrite (zrange_split t0 tf1 tf2) in H by lia.
  destruct (run_app query keep detect fmt (Some tf2) nt _ _ _ _ _ R2 H eq_refl) as (R1 & f1 & H1 & H2).
  exists R1. split.
  - unfold returns. rewrite run_unfold by lia.
    rewrite (tt_loop_tf query keep true detect fmt nt (Some tf1) (Some tf2)).
    + rewrite H1. reflexivity.
    + intros t Ht. apply zrange_In in Ht. rewrite !pc_ok by lia. reflexivity.
  - eauto.
Qed.

Lemma C01_lemma t0 tf1 tf2 nt R2 :
  0 <= t0 -> 0 < tf1 -> t0 <= tf1 <= tf2 -> snapshots_ok detect t0 tf2 ->
  returns (run t0 tf2 nt) R2 ->
  exists R1 new, returns (run t0 tf1 nt) R1 /\ Permutation (rows R2) (rows R1 ++ new) /\
    forall r, In r new -> tf1 <= r_time r < tf2.
Proof.
  intros H0 H1 Hle Hs H.
  destruct (run_prefix t0 tf1 tf2 nt R2 H0) as (R1 & HR1 & f1 & f2 & L1 & L2); [lia|lia|exact H|].
  assert (G1 : Forall (good detect) (zrange t0 tf1)).
  { apply Forall_forall. intros t Ht. apply zrange_In in Ht. apply (snapshots_good t0 tf2 Hs). lia. }
  assert (G2 : Forall (good detect) (zrange tf1 tf2)).
  { apply Forall_forall. intros t Ht. apply zrange_In in Ht. apply (snapshots_good t0 tf2 Hs). lia. }
  destruct (run_inv hav query Hq keep detect fmt _ nt _ _ _ _ _ (zrange_NoDup t0 tf1) G1 (or_introl eq_refl) L1) as (_ & W1 & _).
  destruct (run_inv hav query Hq keep detect fmt _ nt _ _ _ _ _ (zrange_NoDup tf1 tf2) G2 W1 L2) as (_ & _ & _ & lab & Hp).
  exists R1, (flat_map (labelled detect lab) (zrange tf1 tf2)). split; [exact HR1|]. split; [exact Hp|].
  intros r Hr. apply in_flat_map in Hr. destruct Hr as (t & Ht & Hr). unfold labelled in Hr. apply in_map_iff in Hr.
  destruct Hr as (r' & <- & _). cbn. apply zrange_In in Ht. exact Ht.
Qed.

Lemma C02_lemma t0 tf nt R :
  tf <> 0 -> snapshots_ok detect t0 tf -> returns (run t0 tf nt) R ->
  exists lab : Z -> Z -> Z,
    Permutation (rows R)
      (flat_map (fun t => map (fun r => with_id (at_time t r) (lab t (r_id r))) (found detect t)) (steps t0 tf)).
Proof.
  intros H0 Hs H. apply returns_loop in H. destruct H as (files & H). rewrite run_unfold in H by lia.
  destruct (run_inv hav query Hq keep detect fmt _ nt _ _ _ _ _ (zrange_NoDup t0 tf) (snapshots_Forall _ _ Hs) (or_introl eq_refl) H)
    as (_ & _ & _ & lab & Hp). exists lab. exact Hp.
Qed.

Lemma run_state t0 tf nt R :
  tf <> 0 -> snapshots_ok detect t0 tf -> returns (run t0 tf nt) R -> state_wf R.
Proof.
  intros H0 Hs H. apply returns_loop in H. destruct H as (files & H). rewrite run_unfold in H by lia.
  destruct (run_inv hav query Hq keep detect fmt _ nt _ _ _ _ _ (zrange_NoDup t0 tf) (snapshots_Forall _ _ Hs) (or_introl eq_refl) H)
    as (_ & W & _). exact W.
Qed.

Lemma C03_lemma t0 tf nt R :
  tf <> 0 -> snapshots_ok detect t0 tf -> returns (run t0 tf nt) R ->
  exists n, contiguous (rows R) n /\ ids R = map Z.of_nat (seq 0 n).
Proof.
  intros H0 Hs H. destruct (run_state t0 tf nt R H0 Hs H) as [->|(P & [H1 H2 H3 H4 H5 H6])].
  - exists 0%nat. split; [|reflexivity]. intro i. cbn. split; [intros (r & [] & _)|lia].
  - exists P. split; [apply used_contiguous; exact H3|exact H2].
Qed.

Lemma C04_lemma t0 tf nt R :
  tf <> 0 -> snapshots_ok detect t0 tf -> returns (run t0 tf nt) R -> sorted_table (rows R).
Proof.
  intros H0 Hs H. destruct (run_state t0 tf nt R H0 Hs H) as [->|(P & [H1 H2 H3 H4 H5 H6])]; [constructor|exact H6].
Qed.

(** linking *)
Lemma distinct_starts f n t : map r_id (filter (fun r => r_idx r =? 0) (rows f)) = map Z.of_nat (seq 0 n) ->
  forall r, In r (rows f) -> r_idx r = 0 ->
  nth_error (starts (stamp t f)) (Z.to_nat (r_id r)) = Some (set_time t r).
Proof.
  intros H r Hr E.
  assert (Hin : In r (filter (fun r => r_idx r =? 0) (rows f))) by (apply filter_In; split; [assumption|lia]).
  apply In_nth_error in Hin. destruct Hin as (j & Hj).
  assert (Hid : r_id r = Z.of_nat j).
  { assert (E2 : nth_error (map r_id (filter (fun r => r_idx r =? 0) (rows f))) j = Some (r_id r))
      by (rewrite nth_error_map, Hj; reflexivity).
    rewrite H in E2. change (map Z.of_nat (seq 0 n)) with (zseq n) in E2.
    assert (j < n)%nat by (rewrite <- (zseq_length n); apply nth_error_Some; congruence).
    rewrite zseq_nth in E2 by assumption. congruence. }
  rewrite Hid, Nat2Z.id. unfold starts. cbn [stamp set_index rows]. rewrite filter_map_comm. cbn [set_time r_idx].
  rewrite nth_error_map, Hj. reflexivity.
Qed.

Lemma new_label_linked P index nearest j k : In j nearest -> nth_error index j = Some k ->
  new_label P index nearest (Z.of_nat j) = Z.of_nat k.
Proof. intros H1 H2. unfold new_label. rewrite Nat2Z.id, (proj2 (memn_In _ _) H1), H2. reflexivity. Qed.
Lemma new_label_fresh P index nearest j : ~ In j nearest ->
  new_label P index nearest (Z.of_nat j) = Z.of_nat (P + length (filter (unlinked nearest) (seq 0 j))).
Proof.
  intro H. unfold new_label. rewrite Nat2Z.id. destruct (memn j nearest) eqn:E; [|reflexivity].
  apply memn_In in E. contradiction.
Qed.

Lemma filter_seq_lt (g : nat -> bool) i j : (i < j)%nat -> g i = true ->
  (length (filter g (seq 0 i)) < length (filter g (seq 0 j)))%nat.
Proof.
  intros Hij Hg. replace j with (i + S (j - i - 1))%nat by lia. rewrite seq_app, filter_app, app_length.
  cbn. rewrite Hg. cbn. lia.
Qed.

(** one step, stated on the labels *)
Lemma step_links T P f t nt R :
  track_wf T P -> snapshot_ok f -> rows f <> [] -> distinct_eddies f ->
  track_online query keep T (stamp t f) t nt = Ok R ->
  exists (pos : Z -> Q * Q) (g : Z -> Z),
    (forall k, 0 <= k < Z.of_nat P -> latest_position (rows T) k (pos k)) /\
    Permutation (rows R) (rows T ++ map (fun r => with_id (at_time t r) (g (r_id r))) (rows f)) /\
    (forall r c rad, In r (rows f) -> r_idx r = 0 -> position_of r c -> radius_eddy (r_cols r) = Num rad ->
       (exists k, 0 <= k < Z.of_nat P /\ g (r_id r) = k /\ reaches hav c rad (pos k) /\
          forall k', 0 <= k' < Z.of_nat P -> (hav c (pos k) <= hav c (pos k'))%Q)
       \/ (Z.of_nat P <= g (r_id r) /\ forall k, 0 <= k < Z.of_nat P -> ~ reaches hav c rad (pos k))) /\
    (forall r r', In r (rows f) -> In r' (rows f) -> r_id r < r_id r' ->
       Z.of_nat P <= g (r_id r) -> Z.of_nat P <= g (r_id r') -> g (r_id r) < g (r_id r')).
Proof.
  intros Hwf Hs Hne (m & Hm) Ho.
  destruct (stamp_wf t f Hs Hne) as (n & Hn & Hsw).
  destruct (step_Ok hav query Hq keep T P (stamp t f) t n nt Hwf Hsw
              (track_online_window query keep detect nt _ _ _ _ _ _ Hwf Hsw Ho))
    as (R1 & pos & index & nearest & Ho' & _ & Hp & Hlp & Hnl & Hns).
  rewrite Ho in Ho'. injection Ho' as <-.
  exists pos, (new_label P index nearest).
  assert (Hst : forall r, In r (rows f) -> r_idx r = 0 -> nth_error (starts (stamp t f)) (Z.to_nat (r_id r)) = Some (set_time t r))
    by (apply (distinct_starts f m t Hm)).
  assert (Hid : forall r, In r (rows f) -> 0 <= r_id r).
  { intros r Hr. destruct (proj1 (Hn (r_id r))) as [Hge _]; [exists r; auto|exact Hge]. }
  split; [|split; [|split]].
  - intros k Hk. apply Hlp. apply zseq_In. exact Hk.
  - cbn [stamp set_index rows] in Hp. rewrite map_map in Hp. exact Hp.
  - intros r c rad Hr E [Hy Hx] Hrad.
    specialize (Hst r Hr E). destruct (Hns _ _ Hst) as (k & Hk & HkP & Hmin & Hin).
    assert (Hpos : pos_of (set_time t r) = c).
    { unfold pos_of. cbn. rewrite Hy, Hx. destruct c; reflexivity. }
    rewrite Hpos in *. change (radius (set_time t r)) with (radius_eddy (r_cols r)) in Hin. rewrite Hrad in Hin.
    assert (Hre : nlt (nsub (Num (hav c (pos (Z.of_nat k)) * 6371)) (Num rad)) (Num 0) = true <-> reaches hav c rad (pos (Z.of_nat k))).
    { cbn. unfold reaches. rewrite negb_true_iff, <- not_true_iff_false, Qle_bool_iff.
      generalize (hav c (pos (Z.of_nat k))). intro h. split; intro H; [|intro]; lra. }
    rewrite Hre in Hin. specialize (Hid r Hr).
    destruct (in_dec Nat.eq_dec (Z.to_nat (r_id r)) nearest) as [Hi|Hi].
    + left. exists (Z.of_nat k). split; [lia|]. split.
      * rewrite <- (Z2Nat.id (r_id r)) by exact Hid. apply new_label_linked; assumption.
      * split; [apply Hin; exact Hi|]. intros k' Hk'. apply Hmin. apply zseq_In. exact Hk'.
    + right. split.
      * rewrite <- (Z2Nat.id (r_id r)) by exact Hid. rewrite new_label_fresh by exact Hi. lia.
      * intros k' Hk' Hr'. apply Hi, Hin. unfold reaches in *. eapply Qle_lt_trans; [|exact Hr'].
        apply Qmult_le_compat_r; [|discriminate]. apply Hmin. apply zseq_In. exact Hk'.
  - intros r r' Hr Hr' Hlt Hg Hg'.
    assert (Hun : forall r, In r (rows f) -> Z.of_nat P <= new_label P index nearest (r_id r) -> ~ In (Z.to_nat (r_id r)) nearest).
    { intros q Hqr Hge Hi. assert (Hl := Hnl _ Hi). destruct (nth_error (starts (stamp t f)) (Z.to_nat (r_id q))) as [q'|] eqn:Eq.
      - destruct (Hns _ _ Eq) as (k & Hk & HkP & _).
        rewrite <- (Z2Nat.id (r_id q)) in Hge by (apply Hid; assumption).
        rewrite (new_label_linked P index nearest _ k Hi Hk) in Hge. lia.
      - apply nth_error_None in Eq. lia. }
    assert (H1 := Hun r Hr Hg). assert (H2 := Hun r' Hr' Hg').
    rewrite <- (Z2Nat.id (r_id r)) at 1 by (apply Hid; assumption).
    rewrite <- (Z2Nat.id (r_id r')) at 1 by (apply Hid; assumption).
    rewrite !new_label_fresh by assumption.
    assert (length (filter (unlinked nearest) (seq 0 (Z.to_nat (r_id r)))) < length (filter (unlinked nearest) (seq 0 (Z.to_nat (r_id r')))))%nat; [|lia].
    apply filter_seq_lt; [specialize (Hid r Hr); lia|]. unfold unlinked. destruct (memn _ _) eqn:Em; [|reflexivity].
    apply memn_In in Em. contradiction.
Qed.

(** the step at time t of a run *)
Lemma run_step t0 t nt T R f :
  0 <= t0 < t -> snapshots_ok detect t0 (t + 1) ->
  returns (run t0 t nt) T -> returns (run t0 (t + 1) nt) R ->
  rows T <> [] -> detect t = Ok f -> rows f <> [] ->
  exists P, track_wf T P /\ track_online query keep T (stamp t f) t nt = Ok R.
Proof.
  intros H0 Hs HT HR HTne Hd Hne.
  destruct (run_prefix t0 t (t + 1) nt R) as (R1 & HR1 & f1 & f2 & L1 & L2); try lia; try assumption.
  unfold returns in HT, HR1. rewrite HT in HR1. injection HR1 as <-.
  rewrite zrange_cons, zrange_nil in L2 by lia.
  assert (Hs' : snapshots_ok detect t0 t) by (intros s Hst; apply Hs; lia).
  destruct (run_state t0 t nt T ltac:(lia) Hs' HT) as [->|(P & HP)]; [cbn in HTne; congruence|].
  exists P. split; [exact HP|].
  destruct (tt_loop_cons_Ok query keep detect fmt _ nt t _ T f1 _ L2 R eq_refl)
      as [(He & _ & Hl)|(f' & Hd' & Hne' & [(Htr & Hl)|(Htr & tr & Ho & _ & Hl)])].
  - unfold snap_rows in He. rewrite Hd in He. congruence.
  - congruence.
  - rewrite Hd in Hd'. injection Hd' as <-. cbn in Hl. injection Hl as _ <-. exact Ho.
Qed.

Lemma C05_lemma t0 t nt T R f :
  0 <= t0 < t -> snapshots_ok detect t0 (t + 1) ->
  returns (run t0 t nt) T -> returns (run t0 (t + 1) nt) R ->
  rows T <> [] -> detect t = Ok f -> rows f <> [] -> distinct_eddies f ->
  exists (n : nat) (pos : Z -> Q * Q) (g : Z -> Z),
    contiguous (rows T) n /\
    (forall k, 0 <= k < Z.of_nat n -> latest_position (rows T) k (pos k)) /\
    Permutation (rows R) (rows T ++ map (fun r => with_id (at_time t r) (g (r_id r))) (rows f)) /\
    (forall r c rad, In r (rows f) -> r_idx r = 0 -> position_of r c -> radius_eddy (r_cols r) = Num rad ->
       (exists k, 0 <= k < Z.of_nat n /\ g (r_id r) = k /\ reaches hav c rad (pos k) /\
          forall k', 0 <= k' < Z.of_nat n -> (hav c (pos k) <= hav c (pos k'))%Q)
       \/ (Z.of_nat n <= g (r_id r) /\ forall k, 0 <= k < Z.of_nat n -> ~ reaches hav c rad (pos k))) /\
    (forall r r', In r (rows f) -> In r' (rows f) -> r_id r < r_id r' ->
       Z.of_nat n <= g (r_id r) -> Z.of_nat n <= g (r_id r') -> g (r_id r) < g (r_id r')).
Proof.
  intros H0 Hs HT HR HTne Hd Hne Hdist.
  destruct (run_step t0 t nt T R f H0 Hs HT HR HTne Hd Hne) as (P & HP & Ho).
  destruct (Hs t ltac:(lia)) as (f' & Ef & Hsf). rewrite Hd in Ef. injection Ef as <-.
  destruct (step_links T P f t nt R HP Hsf Hne Hdist Ho) as (pos & g & A & B & C & D).
  exists P, pos, g. split; [apply used_contiguous; apply (tw_used _ _ HP)|]. auto.
Qed.

Lemma C06_lemma t0 t nt T R f :
  0 <= t0 < t -> snapshots_ok detect t0 (t + 1) ->
  returns (run t0 t nt) T -> returns (run t0 (t + 1) nt) R ->
  rows T <> [] -> detect t = Ok f -> rows f <> [] -> distinct_eddies f ->
  (forall r, In r (rows f) -> r_idx r = 0 -> exists rad, radius_eddy (r_cols r) = Num rad) ->
  (forall r r' c c' rad rad' k p, In r (rows f) -> In r' (rows f) -> r_idx r = 0 -> r_idx r' = 0 -> r_id r <> r_id r' ->
     position_of r c -> position_of r' c' -> radius_eddy (r_cols r) = Num rad -> radius_eddy (r_cols r') = Num rad' ->
     latest_position (rows T) k p -> reaches hav c rad p -> reaches hav c' rad' p -> False) ->
  exists g : Z -> Z,
    Permutation (rows R) (rows T ++ map (fun r => with_id (at_time t r) (g (r_id r))) (rows f)) /\
    forall r r', In r (rows f) -> In r' (rows f) -> r_id r <> r_id r' -> g (r_id r) <> g (r_id r').
Proof.
  intros H0 Hs HT HR HTne Hd Hne Hdist Hrad Hcol.
  destruct (C05_lemma t0 t nt T R f H0 Hs HT HR HTne Hd Hne Hdist) as (n & pos & g & Hc & Hpos & Hp & Hl & Hm).
  exists g. split; [exact Hp|].
  destruct (Hs t ltac:(lia)) as (f' & Ef & Hsf). rewrite Hd in Ef. injection Ef as <-. destruct Hsf as (_ & Hfp & Hhp & Htm).
  assert (Hcase : forall r, In r (rows f) -> exists r0 c rad, In r0 (rows f) /\ r_id r0 = r_id r /\ r_idx r0 = 0 /\ position_of r0 c /\
            radius_eddy (r_cols r0) = Num rad /\
            ((exists k, 0 <= k < Z.of_nat n /\ g (r_id r) = k /\ reaches hav c rad (pos k)) \/ Z.of_nat n <= g (r_id r))).
  { intros r Hr. destruct (Hfp r Hr) as (r0 & Hr0 & Hid & _ & Hi0). destruct (Hhp r0 Hr0 Hi0) as (y & x & Hy & Hx).
    destruct (Hrad r0 Hr0 Hi0) as (rad & Hra). exists r0, (y, x), rad.
    assert (Hpo : position_of r0 (y, x)) by (split; assumption).
    do 5 (split; [assumption|]). rewrite <- Hid.
    destruct (Hl r0 (y, x) rad Hr0 Hi0 Hpo Hra) as [(k & A & B & C & _)|[A _]]; [left; eauto|right; assumption]. }
  intros r r' Hr Hr' Hneq Heq.
  destruct (Hcase r Hr) as (r0 & c & rad & A1 & A2 & A3 & A4 & A5 & A6).
  destruct (Hcase r' Hr') as (r0' & c' & rad' & B1 & B2 & B3 & B4 & B5 & B6).
  destruct A6 as [(k & K1 & K2 & K3)|A6], B6 as [(k' & K1' & K2' & K3')|B6]; try lia.
  - assert (E : k' = k) by lia. rewrite E in K3'. apply (Hcol r0 r0' c c' rad rad' k (pos k)); try assumption; [congruence|apply Hpos; exact K1].
  - destruct (Z_lt_le_dec (r_id r) (r_id r')) as [Hlt|Hle].
    + specialize (Hm r r' Hr Hr' Hlt A6 B6). lia.
    + specialize (Hm r' r Hr' Hr ltac:(lia) B6 A6). lia.
Qed.

(** success of runs *)
Lemma window_In t nt w : 1 <= t -> 0 <= nt -> (In w (window t nt) <-> Z.max 0 (t - 1 - nt) <= w <= t - 1).
Proof.
  intros Ht Hn. unfold window. cbn [In]. rewrite zrange_In. destruct (t - 1 <? nt) eqn:E; split; lia.
Qed.

Lemma success_iff t0 tf nt : 0 <= t0 <= tf -> 0 < tf -> 1 <= nt -> snapshots_ok detect t0 tf ->
  ((exists R, returns (run t0 tf nt) R) <->
   ((forall s t, t0 <= s < t -> t < tf -> eddies_at detect s -> eddies_at detect t -> False) \/
    (t0 = 0 /\ exists m, forall t, 0 <= t < tf -> (eddies_at detect t <-> t < m)))).
Proof.
  intros H0 Htf Hnt Hs.
  assert (Hne : forall t, t0 <= t < tf -> (eddies_at detect t <-> snap_rows detect t <> [])).
  { intros t Ht. destruct (Hs t Ht) as (f & Hf & _). unfold eddies_at, snap_rows. rewrite Hf. split.
    - intros (f' & E & H). congruence.
    - intro H. eauto. }
  split.
  - intros (R & HR). apply returns_loop in HR. destruct HR as (files & HR). rewrite run_unfold in HR by lia.
    assert (Hnec := step_needed hav query Hq keep detect fmt (Some tf) nt t0 tf files R (snapshots_good _ _ Hs) HR).
    (* is there a pair? *)
    destruct (existsb (fun t => existsb (fun s => (s <? t) && negb (match snap_rows detect s with [] => true | _ => false end)) (zrange t0 tf) && negb (match snap_rows detect t with [] => true | _ => false end)) (zrange t0 tf)) eqn:Ex.
    + right. apply existsb_exists in Ex. destruct Ex as (t & Ht & Ex). apply andb_true_iff in Ex. destruct Ex as [Ex Ht2].
      apply existsb_exists in Ex. destruct Ex as (s & Hss & Ex). apply andb_true_iff in Ex. destruct Ex as [Hlt Hs2].
      apply zrange_In in Ht. apply zrange_In in Hss.
      assert (Hst : snap_rows detect t <> []) by (intro E; rewrite E in Ht2; discriminate).
      assert (Hsn : snap_rows detect s <> []) by (intro E; rewrite E in Hs2; discriminate).
      clear Ht2 Hs2. assert (Hlt' : s < t) by lia. clear Hlt.
      (* all times from s up to t are non-empty, and so is everything between 0 and s *)
      assert (Hdown : forall n a b, t0 <= a < b -> b < tf -> snap_rows detect a <> [] -> snap_rows detect b <> [] ->
                (Z.to_nat (b - a) <= n)%nat -> forall w, a <= w <= b -> snap_rows detect w <> []).
      { induction n as [|n IH]; intros a b Hab Hb Ha Hbn Hn w Hw; [lia|].
        destruct (Z.eq_dec w b) as [->|Hwb]; [exact Hbn|].
        destruct (Hnec b a Hab Hb Hbn Ha (b - 1)) as [H1 H2].
        { left. reflexivity. }
        destruct (Z.eq_dec a (b - 1)) as [->|Hab1]; [replace w with (b - 1) by lia; exact H2|].
        apply (IH a (b - 1)); try lia; assumption. }
      assert (Ht0z : t0 = 0 /\ snap_rows detect 0 <> []).
      { assert (Hs1 : snap_rows detect (s + 1) <> []) by (apply (Hdown (Z.to_nat (t - s)) s t); try lia; assumption).
        (* descend from s to 0 *)
        assert (Hdesc : forall n a, Z.to_nat a = n -> t0 <= a -> a + 1 < tf -> snap_rows detect a <> [] -> snap_rows detect (a + 1) <> [] ->
                  t0 = 0 /\ snap_rows detect 0 <> []).
        { induction n as [|n IH]; intros a Han Ha Hat Hae Hae1.
          - assert (a = 0) by lia. subst a. split; [lia|exact Hae].
          - destruct (Hnec (a + 1) a ltac:(lia) Hat Hae1 Hae (a - 1)) as [H1 H2].
            { apply window_In; lia. }
            apply (IH (a - 1)); try lia; [exact H2|]. replace (a - 1 + 1) with a by lia. exact Hae. }
        apply (Hdesc (Z.to_nat s) s); try lia; assumption. }
      destruct Ht0z as [-> H00]. split; [reflexivity|].
      (* the largest non-empty time *)
      assert (Hmax : exists m, 0 <= m < tf /\ snap_rows detect m <> [] /\ forall w, 0 <= w < tf -> snap_rows detect w <> [] -> w <= m).
      { assert (forall n, exists m, 0 <= m /\ m < tf /\ snap_rows detect m <> [] /\
                 forall w, 0 <= w < tf -> w < Z.of_nat n -> snap_rows detect w <> [] -> w <= m) as Hn.
        { induction n as [|n (m & A & B & C & D)]; [exists 0; repeat split; try lia; exact H00|].
          destruct (Z_lt_dec (Z.of_nat n) tf) as [Hl|Hl].
          - destruct (snap_rows detect (Z.of_nat n)) as [|r l] eqn:E.
            + exists m. repeat split; try assumption. intros w Hw Hwn Hwe.
              destruct (Z.eq_dec w (Z.of_nat n)) as [->|]; [congruence|]. apply D; try assumption; lia.
            + exists (Z.max m (Z.of_nat n)). split; [lia|]. split; [lia|]. split.
              * destruct (Z.max_spec m (Z.of_nat n)) as [[_ ->]|[_ ->]]; [congruence|assumption].
              * intros w Hw Hwn Hwe. lia.
          - exists m. repeat split; try assumption. intros w Hw Hwn Hwe. apply D; try assumption; lia. }
        destruct (Hn (Z.to_nat tf)) as (m & A & B & C & D). exists m. repeat split; try assumption.
        intros w Hw Hwe. apply D; try assumption. lia. }
      destruct Hmax as (m & Hm & Hmn & Hmx). exists (m + 1). intros w Hw. rewrite Hne by lia. split.
      * intro Hwe. specialize (Hmx w Hw Hwe). lia.
      * intro Hwm. destruct (Z.eq_dec m 0) as [->|Hm0]; [replace w with 0 by lia; exact H00|].
        apply (Hdown (Z.to_nat m) 0 m); try lia; assumption.
    + left. intros s t Hst Ht Hes Het. apply Hne in Hes; [|lia]. apply Hne in Het; [|lia].
      assert (existsb (fun t => existsb (fun s => (s <? t) && negb (match snap_rows detect s with [] => true | _ => false end)) (zrange t0 tf) && negb (match snap_rows detect t with [] => true | _ => false end)) (zrange t0 tf) = true); [|congruence].
      apply existsb_exists. exists t. split; [apply zrange_In; lia|]. apply andb_true_iff. split.
      * apply existsb_exists. exists s. split; [apply zrange_In; lia|]. destruct (snap_rows detect s); [congruence|]. cbn. lia.
      * destruct (snap_rows detect t); [congruence|reflexivity].
  - intro HW.
    destruct (step_sufficient hav query Hq keep detect fmt (Some tf) nt t0 tf) as (R & HR).
    + lia.
    + intros t Ht. destruct (Hs t Ht) as (f & Hf & _). eauto.
    + apply (snapshots_good _ _ Hs).
    + intros t Ht. apply pc_ok; lia.
    + intros t s Hst Ht Hnt' Hns w Hw. apply Hne in Hnt'; [|lia]. apply Hne in Hns; [|lia].
      destruct HW as [HW|(-> & m & Hm)]; [exfalso; eauto|].
      apply window_In in Hw; [|lia|lia]. split; [lia|]. apply Hne; [lia|]. apply Hm; [lia|]. apply Hm in Hnt'; lia.
    + exists R. unfold returns. rewrite run_unfold, HR by lia. reflexivity.
Qed.

Lemma C07_lemma t0 tf nt1 nt2 R1 R2 : tf <> 0 -> snapshots_ok detect t0 tf ->
  returns (run t0 tf nt1) R1 -> returns (run t0 tf nt2) R2 -> R1 = R2.
Proof.
  intros H0 Hs H1 H2. apply returns_loop in H1. apply returns_loop in H2. destruct H1 as (f1 & H1), H2 as (f2 & H2).
  rewrite run_unfold in H1, H2 by lia.
  eapply (run_nt hav query Hq keep detect fmt (Some tf) nt1 nt2 (zrange t0 tf) empty_frame []);
    [apply snapshots_Forall; eassumption|left; reflexivity|exact H1|reflexivity|exact H2|reflexivity].
Qed.

(** tf left out *)
Lemma none_iff t0 nt : 0 <= len -> snapshots_ok detect 0 len ->
  ((exists R, returns (time_tracking query keep detect true fmt len t0 None nt) R) <->
   (forall s t, 0 <= s < t -> t < len -> eddies_at detect s -> eddies_at detect t -> False)).
Proof.
  intros Hlen Hs. unfold time_tracking, tt_times.
  assert (Hne : forall t, 0 <= t < len -> (eddies_at detect t <-> snap_rows detect t <> [])).
  { intros t Ht. destruct (Hs t Ht) as (f & Hf & _). unfold eddies_at, snap_rows. rewrite Hf. split.
    - intros (f' & E & H). congruence.
    - intro H. eauto. }
  split.
  - intros (R & HR) s t Hst Ht Hes Het. apply Hne in Hes; [|lia]. apply Hne in Het; [|lia].
    apply returns_loop in HR. destruct HR as (files & HR).
    rewrite (zrange_split 0 t len), (zrange_cons t len) in HR by lia.
    destruct (run_app query keep detect fmt None nt _ _ _ _ _ R HR eq_refl) as (T & f1 & H1 & H2).
    assert (HgT : Forall (good detect) (zrange 0 t)).
    { apply Forall_forall. intros x Hx. apply zrange_In in Hx. apply (snapshots_good _ _ Hs). lia. }
    assert (HTne : rows T <> []).
    { destruct (proj2 (present hav query Hq keep detect fmt None nt _ f1 T s (zrange_NoDup 0 t) HgT H1)) as (r & Hr & _).
      - split; [apply zrange_In; lia|exact Hes].
      - intro E. rewrite E in Hr. destruct Hr. }
    destruct (tt_loop_cons_Ok query keep detect fmt None nt t _ T f1 _ H2 R eq_refl)
      as [(He & _ & Hl)|(f & Hd & Hnef & [(Htr & Hl)|(Htr & tr & Ho & Hpc & Hl)])]; [congruence|congruence|].
    discriminate.
  - intro Hno.
    assert (Hgen : forall times track, StronglySorted Z.lt times -> (forall t, In t times -> 0 <= t < len) ->
       (rows track <> [] -> forall t, In t times -> snap_rows detect t = []) ->
       exists R, tt_loop query keep detect true fmt None nt times track [] = ([], Ok R)).
    { induction times as [|t rest IH]; intros track Hsort Hin Htr; [cbn; eauto|].
      inversion Hsort as [|? ? Hsort' Hall]; subst. rewrite Forall_forall in Hall.
      cbn [tt_loop]. destruct (Hs t (Hin t (or_introl eq_refl))) as (f & Hf & Hsf). rewrite Hf.
      destruct (empty f) eqn:Ee.
      - apply IH; [assumption|intros; apply Hin; right; assumption|intros; apply Htr; [assumption|right; assumption]].
      - destruct (empty track) eqn:Et.
        + apply IH; [assumption|intros; apply Hin; right; assumption|]. intros _ s Hsr.
          destruct (snap_rows detect s) as [|r l] eqn:E; [reflexivity|]. exfalso.
          apply (Hno t s).
          * specialize (Hall s Hsr). specialize (Hin t (or_introl eq_refl)). lia.
          * specialize (Hin s (or_intror Hsr)). lia.
          * apply Hne; [apply Hin; left; reflexivity|]. unfold snap_rows. rewrite Hf. apply empty_false. exact Ee.
          * apply Hne; [apply Hin; right; assumption|]. congruence.
        + exfalso. apply empty_false in Et. specialize (Htr Et t (or_introl eq_refl)). unfold snap_rows in Htr. rewrite Hf in Htr.
          apply empty_false in Ee. congruence. }
    destruct (Hgen (zrange 0 len) empty_frame) as (R & HR).
    + apply zrange_sorted.
    + intros t Ht. apply zrange_In in Ht. exact Ht.
    + cbn. congruence.
    + exists R. unfold returns. rewrite HR. reflexivity.
Qed.
End Props.

(** offline *)
Section Off.
Variable query : list (Q * Q) -> list (Q * Q) -> list (Q * nat).
Variables (keep : bool) (detect : Z -> res frame) (fmt : string) (len t0 tf nt : Z).

Lemma offline_files f0 s :
  0 <= t0 -> 0 < tf -> store_effect fmt = Ok true ->
  (forall t, t0 <= t < tf -> exists f, detect t = Ok f) ->
  t0 <= s < tf -> detect s = Ok f0 -> rows f0 <> [] -> (forall t, t0 <= t < s -> found detect t = []) ->
  exists files T, time_tracking query keep detect false fmt len t0 (Some tf) nt = (files, Ok T) /\
    map (fun p => (fst p, rows (snd p))) files =
      flat_map (fun t => match found detect t with [] => [] | l => [(t, map (at_time t) l)] end) (steps (s + 1) tf) /\
    Permutation (rows T) (map (at_time s) (rows f0)).
Proof.
  intros H0 Htf Hst Hd Hs Hf0 Hne Hbefore.
  unfold time_tracking, tt_times. destruct (tf =? 0) eqn:E; [lia|].
  rewrite (zrange_split t0 s tf), (zrange_cons s tf) by lia.
  assert (Hskip : forall times, (forall t, In t times -> t0 <= t < s) -> forall rest,
     tt_loop query keep detect false fmt (Some tf) nt (times ++ rest) empty_frame [] =
     tt_loop query keep detect false fmt (Some tf) nt rest empty_frame []).
  { induction times as [|t ts IH]; intros Hin rest; [reflexivity|]. cbn [app tt_loop].
    destruct (Hd t) as (f & Hf); [specialize (Hin t (or_introl eq_refl)); lia|]. rewrite Hf.
    assert (empty f = true) as ->.
    { apply empty_true. assert (Hb := Hbefore t (Hin t (or_introl eq_refl))). unfold found in Hb. rewrite Hf in Hb. exact Hb. }
    apply IH. intros; apply Hin; right; assumption. }
  rewrite Hskip by (intros t Ht; apply zrange_In in Ht; exact Ht).
  cbn [tt_loop]. rewrite Hf0. generalize Hne; intro Hne'. apply empty_false in Hne'. rewrite Hne'. cbn [empty empty_frame rows].
  rewrite offline_after.
  - eexists _, _. split; [reflexivity|]. split.
    + cbn [app]. change (steps (s + 1) tf) with (zrange (s + 1) tf).
      induction (zrange (s + 1) tf) as [|t l IH]; [reflexivity|].
      cbn [flat_map]. rewrite map_app, IH. f_equal. unfold found. destruct (detect t) as [f|]; [|reflexivity].
      unfold empty. destruct (rows f) as [|r l'] eqn:Er; [reflexivity|]. cbn. rewrite Er. reflexivity.
    + cbn [set_index rows stamp]. apply isort_perm.
  - cbn. intro E2. assert (Hp := isort_perm le_id_time_idx (map (set_time s) (rows f0))). rewrite E2 in Hp.
    apply Permutation_nil in Hp. destruct (rows f0); [congruence|discriminate].
  - exact Hst.
  - intros t Ht. apply zrange_In in Ht. apply Hd. lia.
  - intros t Ht. apply zrange_In in Ht. apply (pc_ok detect); lia.
Qed.
End Off.

Lemma offline_files_fmt query keep detect fmt len t0 tf nt f0 s :
  0 <= t0 -> 0 < tf -> (fmt = "csv" \/ fmt = "json")%string ->
  (forall t, t0 <= t < tf -> exists f, detect t = Ok f) ->
  t0 <= s < tf -> detect s = Ok f0 -> rows f0 <> [] -> (forall t, t0 <= t < s -> found detect t = []) ->
  exists files T, time_tracking query keep detect false fmt len t0 (Some tf) nt = (files, Ok T) /\
    map (fun p => (fst p, rows (snd p))) files =
      flat_map (fun t => match found detect t with [] => [] | l => [(t, map (at_time t) l)] end) (steps (s + 1) tf) /\
    Permutation (rows T) (map (at_time s) (rows f0)).
Proof.
  intros H0 Htf Hfmt. apply offline_files; [assumption|assumption|]. destruct Hfmt as [-> | ->]; reflexivity.
Qed.

(** Whole runs of time_tracking: success, independence of ntimes and tf, offline mode. *)
From Coq Require Import ZifyBool ZifyNat.
From Verif Require Import M_Base M_Tables S_Tracking L_Base L_Tables L_Track L_Step L_Run.
Open Scope Z_scope.

Lemma zrange_split a b c : a <= b <= c -> zrange a c = zrange a b ++ zrange b c.
Proof.
  intro H. unfold zrange. replace (Z.to_nat (c - a)) with (Z.to_nat (b - a) + Z.to_nat (c - b))%nat by lia.
  rewrite seq_app, map_app. f_equal. cbn [plus].
  rewrite <- (Nat.add_0_r (Z.to_nat (b - a))) at 1.
  generalize 0%nat as s. induction (Z.to_nat (c - b)) as [|n IH]; intro s; [reflexivity|].
  cbn [seq map]. f_equal; [lia|]. rewrite <- (IH (S s)). f_equal. f_equal. lia.
Qed.
Lemma zrange_cons a b : a < b -> zrange a b = a :: zrange (a + 1) b.
Proof.
  intro H. rewrite (zrange_split a (a + 1) b) by lia. f_equal.
  unfold zrange. replace (Z.to_nat (a + 1 - a)) with 1%nat by lia. cbn. f_equal. lia.
Qed.
Lemma zrange_nil a b : b <= a -> zrange a b = [].
Proof. intro H. unfold zrange. replace (Z.to_nat (b - a)) with 0%nat by lia. reflexivity. Qed.
Lemma zrange_NoDup a b : NoDup (zrange a b).
Proof. apply NoDup_sorted_lt, zrange_sorted. Qed.

Section Tf.
Variable query : list (Q * Q) -> list (Q * Q) -> list (Q * nat).
Variables (keep online : bool) (detect : Z -> res frame) (fmt : string) (nt : Z).

Lemma tt_loop_tf tf1 tf2 times track files :
  (forall t, In t times -> print_check tf1 t = print_check tf2 t) ->
  tt_loop query keep detect online fmt tf1 nt times track files =
  tt_loop query keep detect online fmt tf2 nt times track files.
Proof.
  revert track files. induction times as [|t rest IH]; intros track files H; [reflexivity|].
  cbn [tt_loop]. rewrite (H t (or_introl eq_refl)).
  assert (Hr : forall t, In t rest -> print_check tf1 t = print_check tf2 t) by (intros; apply H; right; assumption).
  destruct (detect t) as [cur|e]; [|reflexivity].
  destruct (empty cur); [apply IH, Hr|]. destruct (empty track); [apply IH, Hr|].
  destruct online.
  - destruct (track_online query keep track (stamp t cur) t nt); [|reflexivity].
    destruct (print_check tf2 t); [apply IH, Hr|reflexivity].
  - destruct (store_effect fmt); [|reflexivity]. destruct (print_check tf2 t); [apply IH, Hr|reflexivity].
Qed.
End Tf.

Section Run.
Variable hav : Q * Q -> Q * Q -> Q.
Variable query : list (Q * Q) -> list (Q * Q) -> list (Q * nat).
Hypothesis Hq : query_ok hav query.
Variable keep : bool.
Variable detect : Z -> res frame.
Variable fmt : string.

Notation loop tf nt := (tt_loop query keep detect true fmt tf nt).
Notation snap := (snap_rows detect).

Lemma loop_app_fwd tf nt ts1 ts2 track files files1 R1 :
  loop tf nt ts1 track files = (files1, Ok R1) ->
  loop tf nt (ts1 ++ ts2) track files = loop tf nt ts2 R1 files1.
Proof.
  revert track files. induction ts1 as [|t rest IH]; intros track files H.
  - cbn in *. injection H as -> ->. reflexivity.
  - cbn [app tt_loop] in *. destruct (detect t) as [f|e]; [|discriminate].
    destruct (empty f); [apply IH; assumption|]. destruct (empty track); [apply IH; assumption|].
    destruct (track_online query keep track (stamp t f) t nt) as [tr|e]; [|discriminate].
    destruct (print_check tf t); [apply IH; assumption|discriminate].
Qed.

(** the times present in a table reached by a run *)
Lemma present tf nt times files R s :
  NoDup times -> Forall (good detect) times ->
  loop tf nt times empty_frame [] = (files, Ok R) ->
  (has_time (rows R) s <-> In s times /\ snap s <> []).
Proof.
  intros HND Hg H.
  destruct (run_inv hav query Hq keep detect fmt tf nt times empty_frame [] files R HND Hg (or_introl eq_refl) H)
    as (_ & _ & _ & lab & Hp). cbn [app rows empty_frame] in Hp. split.
  - intros (r & Hr & Et). apply (Permutation_in _ Hp) in Hr. apply in_flat_map in Hr. destruct Hr as (t & Ht & Hr).
    unfold labelled in Hr. apply in_map_iff in Hr. destruct Hr as (r' & <- & Hr'). cbn in Et. subst t.
    split; [assumption|]. intro E. rewrite E in Hr'. destruct Hr'.
  - intros (Hs & Hne). destruct (snap s) as [|r l] eqn:E; [congruence|].
    exists (with_id (at_time s r) (lab s (r_id r))). split; [|reflexivity].
    apply (Permutation_in _ (Permutation_sym Hp)). apply in_flat_map. exists s. split; [assumption|].
    unfold labelled. apply in_map_iff. exists r. rewrite E. split; [reflexivity|left; reflexivity].
Qed.

(** what a successful run needs at each non-empty step after the first *)
Lemma step_needed tf nt t0 t1 files R :
  (forall t, t0 <= t < t1 -> good detect t) ->
  loop tf nt (zrange t0 t1) empty_frame [] = (files, Ok R) ->
  forall t s, t0 <= s < t -> t < t1 -> snap t <> [] -> snap s <> [] ->
  forall w, In w (window t nt) -> t0 <= w < t /\ snap w <> [].
Proof.
  intros Hg H t s Hst Ht1 Hnt Hns w Hw.
  rewrite (zrange_split t0 t t1), (zrange_cons t t1) in H by lia.
  destruct (run_app query keep detect fmt tf nt _ _ _ _ _ R H eq_refl) as (T & f1 & H1 & H2).
  assert (HgT : Forall (good detect) (zrange t0 t)).
  { apply Forall_forall. intros x Hx. apply zrange_In in Hx. apply Hg. lia. }
  assert (Hpres := fun x => present tf nt _ f1 T x (zrange_NoDup t0 t) HgT H1).
  destruct (run_inv hav query Hq keep detect fmt tf nt _ empty_frame [] f1 T (zrange_NoDup t0 t) HgT (or_introl eq_refl) H1)
    as (_ & Hwf & _ & _).
  assert (HTne : rows T <> []).
  { destruct (proj2 (Hpres s)) as (r & Hr & _); [split; [apply zrange_In; lia|assumption]|].
    intro E. rewrite E in Hr. destruct Hr. }
  destruct Hwf as [->|(P & Hwf)]; [cbn in HTne; congruence|].
  destruct (tt_loop_cons_Ok query keep detect fmt tf nt t _ T f1 _ H2 R eq_refl)
      as [(He & _ & Hl)|(f & Hd & Hne & [(Htr & Hl)|(Htr & tr & Ho & _ & Hl)])]; [congruence|congruence|].
  destruct (stamp_wf t f (Hg t ltac:(lia) f Hd) Hne) as (n & Hn & Hsw).
  assert (Hwin := track_online_window query keep detect nt T P _ t n tr Hwf Hsw Ho w Hw).
  apply Hpres in Hwin. destruct Hwin as [Hin Hne']. apply zrange_In in Hin. auto.
Qed.

Lemma step_sufficient tf nt t0 t1 : t0 <= t1 ->
  (forall t, t0 <= t < t1 -> exists f, detect t = Ok f) ->
  (forall t, t0 <= t < t1 -> good detect t) ->
  (forall t, t0 <= t < t1 -> print_check tf t = Ok tt) ->
  (forall t s, t0 <= s < t -> t < t1 -> snap t <> [] -> snap s <> [] ->
     forall w, In w (window t nt) -> t0 <= w < t /\ snap w <> []) ->
  exists R, loop tf nt (zrange t0 t1) empty_frame [] = ([], Ok R).
Proof.
  intros Hle Hd Hg Hpc HW.
  assert (Hgen : forall n, t0 + Z.of_nat n <= t1 -> exists R, loop tf nt (zrange t0 (t0 + Z.of_nat n)) empty_frame [] = ([], Ok R)).
  { induction n as [|n IH]; intro Hn.
    - rewrite zrange_nil by lia. cbn. eauto.
    - destruct IH as (T & HT); [lia|].
      rewrite (zrange_split t0 (t0 + Z.of_nat n)) by lia. rewrite (loop_app_fwd _ _ _ _ _ _ _ _ HT).
      set (t := t0 + Z.of_nat n) in *.
      assert (HgT : Forall (good detect) (zrange t0 t)).
      { apply Forall_forall. intros x Hx. apply zrange_In in Hx. apply Hg. lia. }
      assert (Hpres := fun x => present tf nt _ [] T x (zrange_NoDup t0 t) HgT HT).
      destruct (run_inv hav query Hq keep detect fmt tf nt _ empty_frame [] [] T (zrange_NoDup t0 t) HgT (or_introl eq_refl) HT)
         as (_ & Hwf & _ & lab & Hperm).
      rewrite zrange_cons, zrange_nil by lia. cbn [tt_loop].
      destruct (Hd t) as (f & Hf); [lia|]. rewrite Hf.
      destruct (empty f) eqn:Ee; [eauto|]. destruct (empty T) eqn:ET; [eauto|].
      destruct Hwf as [->|(P & Hwf)]; [discriminate|].
      apply empty_false in Ee. apply empty_false in ET.
      destruct (stamp_wf t f (Hg t ltac:(lia) f Hf) Ee) as (m & Hm & Hsw).
      assert (exists s, t0 <= s < t /\ snap s <> []) as (s & Hs1 & Hs2).
      { destruct (rows T) as [|r l] eqn:E; [congruence|].
        destruct (proj1 (Hpres (r_time r))) as [Hin Hne]; [exists r; split; [left; reflexivity|reflexivity]|].
        exists (r_time r). apply zrange_In in Hin. auto. }
      destruct (step_Ok hav query Hq keep T P _ t m nt Hwf Hsw) as (R & _ & _ & _ & Ho & _).
      { intros w Hw. apply Hpres. rewrite zrange_In. apply (HW t s); try lia; try assumption.
        unfold snap_rows. rewrite Hf. exact Ee. }
      rewrite Ho, Hpc by lia. eauto. }
  destruct (Hgen (Z.to_nat (t1 - t0))) as (R & HR); [lia|].
  replace (t0 + Z.of_nat (Z.to_nat (t1 - t0))) with t1 in HR by lia. eauto.
Qed.

(** [ntimes] does not influence the result of a step that succeeds *)
Lemma unlink_nt f P time nt1 nt2 u1 u2 : ids f = zseq P -> used (rows f) = zseq P ->
  unlink f time nt1 = Ok u1 -> unlink f time nt2 = Ok u2 -> u1 = u2.
Proof.
  intros Hids Hused H1 H2. unfold unlink in *.
  destruct (xs_time_levels time f) as [last|e] eqn:Ex; [|discriminate].
  unfold xs_time_levels in Ex. destruct (existsb _ _); [|discriminate]. injection Ex as <-.
  cbn [bind] in *.
  assert (Hl : forall times acc a, unlink_loop f (ids f) times acc = Ok a -> a = acc).
  { induction times as [|t ts IH]; cbn; intros acc a H; [congruence|].
    unfold xs_time_levels in H. destruct (existsb _ _); [|discriminate]. cbn in H.
    rewrite non_duplicated_twice, app_nil_r in H by (rewrite Hids; apply zseq_sorted). apply IH. exact H. }
  destruct (unlink_loop f (ids f) (zrange (time - (if time <? nt1 then time else nt1)) time) (ids f)) eqn:E1; [|discriminate].
  destruct (unlink_loop f (ids f) (zrange (time - (if time <? nt2 then time else nt2)) time) (ids f)) eqn:E2; [|discriminate].
  apply Hl in E1. apply Hl in E2. subst. congruence.
Qed.

Lemma run_nt tf nt1 nt2 times : forall track files out1 out2 R1 R2,
  Forall (good detect) times -> state_wf track ->
  loop tf nt1 times track files = out1 -> snd out1 = Ok R1 ->
  loop tf nt2 times track files = out2 -> snd out2 = Ok R2 -> R1 = R2.
Proof.
  induction times as [|t rest IH]; intros track files out1 out2 R1 R2 Hg Hwf H1 HR1 H2 HR2.
  - cbn in *. subst. cbn in *. congruence.
  - inversion Hg as [|? ? Hgt Hg']; subst.
    destruct (tt_loop_cons_Ok query keep detect fmt tf nt1 t rest track files _ eq_refl R1 HR1)
      as [(He & _ & Hl)|(f & Hd & Hne & [(Htr & Hl)|(Htr & tr & Ho & _ & Hl)])];
    destruct (tt_loop_cons_Ok query keep detect fmt tf nt2 t rest track files _ eq_refl R2 HR2)
      as [(He2 & _ & Hl2)|(f2 & Hd2 & Hne2 & [(Htr2 & Hl2)|(Htr2 & tr2 & Ho2 & _ & Hl2)])];
    try (unfold snap_rows in *; rewrite ?Hd, ?Hd2 in *; congruence).
    + eapply IH; eauto; congruence.
    + rewrite Hd in Hd2. injection Hd2 as <-.
      destruct (first_wf t f (Hgt f Hd) Hne) as (n & _ & Hfw).
      eapply (IH (set_index (isort le_id_time_idx (rows (stamp t f)))) files); eauto; try congruence. right; eauto.
    + rewrite Hd in Hd2. injection Hd2 as <-.
      destruct Hwf as [->|(P & Hwf)]; [cbn in Htr; congruence|].
      destruct (stamp_wf t f (Hgt f Hd) Hne) as (n & Hn & Hsw).
      assert (tr2 = tr) as ->.
      { unfold track_online in Ho, Ho2.
        destruct (unlink track (t - 1) nt1) as [u1|] eqn:E1; [|discriminate].
        destruct (unlink track (t - 1) nt2) as [u2|] eqn:E2; [|discriminate].
        destruct Hwf as [W1 W2 W3 W4 W5 W6].
        rewrite (unlink_nt track P (t - 1) nt1 nt2 u1 u2 W2 W3 E1 E2) in Ho. congruence. }
      destruct (step_Ok hav query Hq keep track P (stamp t f) t n nt1 Hwf Hsw
                  (track_online_window _ _ detect _ _ _ _ _ _ _ Hwf Hsw Ho)) as (R' & pos & index & nearest & Ho' & Hw1 & _).
      rewrite Ho in Ho'. injection Ho' as <-.
      eapply (IH tr files); eauto; try congruence. right; eauto.
Qed.
End Run.

(** *** offline mode *)
Section Offline.
Variable query : list (Q * Q) -> list (Q * Q) -> list (Q * nat).
Variable keep : bool.
Variable detect : Z -> res frame.
Variable fmt : string.
Variables (tf : option Z) (nt : Z).
Notation loop := (tt_loop query keep detect false fmt tf nt).
Notation snap := (snap_rows detect).

Lemma offline_after times : forall track files,
  rows track <> [] -> store_effect fmt = Ok true ->
  (forall t, In t times -> exists f, detect t = Ok f) ->
  (forall t, In t times -> print_check tf t = Ok tt) ->
  loop times track files =
    (files ++ flat_map (fun t => match detect t with Ok f => if empty f then [] else [(t, stamp t f)] | Err _ => [] end) times, Ok track).
Proof.
  induction times as [|t rest IH]; intros track files Hne Hst Hd Hpc.
  - cbn. rewrite app_nil_r. reflexivity.
  - cbn [tt_loop flat_map]. destruct (Hd t (or_introl eq_refl)) as (f & Hf). rewrite Hf.
    assert (IH' := fun files => IH track files Hne Hst (fun x Hx => Hd x (or_intror Hx)) (fun x Hx => Hpc x (or_intror Hx))).
    destruct (empty f) eqn:Ee; [rewrite IH'; reflexivity|].
    apply empty_false in Hne. rewrite Hne, Hst, (Hpc t (or_introl eq_refl)). rewrite IH', <- app_assoc. reflexivity.
Qed.
End Offline.

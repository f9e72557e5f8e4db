(** Whole runs of time_tracking. *)
From Coq Require Import ZifyBool ZifyNat.
From Verif Require Import M_Base M_Tables S_Tracking L_Base L_Tables L_Track L_Step.
Open Scope Z_scope.

Lemma empty_true f : empty f = true <-> rows f = [].
Proof. unfold empty. destruct (rows f); split; congruence. Qed.
Lemma empty_false f : empty f = false <-> rows f <> [].
Proof. unfold empty. destruct (rows f); split; congruence. Qed.

Lemma used_stamp t f : used (map (set_time t) (rows f)) = used (rows f).
Proof. unfold used. rewrite map_map. reflexivity. Qed.

Lemma stamp_wf t f : snapshot_ok f -> rows f <> [] -> exists n, contiguous (rows f) n /\ snap_wf (stamp t f) t n.
Proof.
  intros ((n & Hn) & Hfp & Hco & Hti) Hne. exists n. split; [exact Hn|].
  assert (Hu : used (rows f) = zseq n) by (apply contiguous_used, Hn).
  constructor.
  - destruct n; [|lia]. exfalso. destruct (rows f) as [|r l] eqn:E; [congruence|].
    destruct (proj1 (Hn (r_id r))); [|lia]. exists r. split; [left; reflexivity|reflexivity].
  - change (used (map (set_time t) (rows f)) = zseq n). rewrite used_stamp. exact Hu.
  - change (used (map (set_time t) (rows f)) = zseq n). rewrite used_stamp. exact Hu.
  - cbn. intros r Hr. apply in_map_iff in Hr. destruct Hr as (r' & <- & Hr').
    destruct (Hfp r' Hr') as (r0 & Hr0 & E1 & E2 & E3). exists (set_time t r0).
    split; [apply in_map; assumption|]. cbn. auto.
  - cbn. intros r Hr E. apply in_map_iff in Hr. destruct Hr as (r' & <- & Hr'). apply (Hco r' Hr'). exact E.
  - cbn. intros r Hr. apply in_map_iff in Hr. destruct Hr as (r' & <- & _). reflexivity.
Qed.

(** the first non-empty snapshot *)
Lemma first_wf t f : snapshot_ok f -> rows f <> [] ->
  exists n, contiguous (rows f) n /\ track_wf (set_index (isort le_id_time_idx (rows (stamp t f)))) n.
Proof.
  intros Hs Hne. destruct (stamp_wf t f Hs Hne) as (n & Hn & [H1 H2 H3 H4 H5 H6]). exists n. split; [exact Hn|].
  assert (Hp := isort_perm le_id_time_idx (rows (stamp t f))).
  constructor.
  - exact H1.
  - cbn [set_index ids]. rewrite (used_perm _ _ Hp). exact H3.
  - cbn [set_index rows]. rewrite (used_perm _ _ Hp). exact H3.
  - cbn [set_index rows]. intros r Hr. apply isort_In in Hr. destruct (H4 r Hr) as (r0 & Hr0 & E).
    exists r0. split; [apply isort_In; assumption|exact E].
  - cbn [set_index rows]. intros r Hr E. apply isort_In in Hr. auto.
  - apply sort3_sorted.
Qed.

Lemma track_wf_ne f P : track_wf f P -> rows f <> [].
Proof.
  intros [H1 _ H3 _ _ _] E. rewrite E in H3. destruct P; [lia|]. discriminate.
Qed.

Section Run.
Variable hav : Q * Q -> Q * Q -> Q.
Variable query : list (Q * Q) -> list (Q * Q) -> list (Q * nat).
Hypothesis Hq : query_ok hav query.
Variable keep : bool.
Variable detect : Z -> res frame.
Variable fmt : string.
Variable tf : option Z.
Variable nt : Z.

Definition state_wf (f : frame) : Prop := f = empty_frame \/ exists P, track_wf f P.

Notation loop := (tt_loop query keep detect true fmt tf nt).
Definition snap_rows (t : Z) : list row := match detect t with Ok f => rows f | Err _ => [] end.
Definition good (t : Z) : Prop := forall f, detect t = Ok f -> snapshot_ok f.

(** one iteration of the online loop on a non-empty snapshot *)
Lemma tt_loop_cons_Ok t rest track files out :
  loop (t :: rest) track files = out -> forall R, snd out = Ok R ->
  (snap_rows t = [] /\ (exists f, detect t = Ok f) /\ loop rest track files = out) \/
  (exists f, detect t = Ok f /\ rows f <> [] /\
     ((rows track = [] /\ loop rest (set_index (isort le_id_time_idx (rows (stamp t f)))) files = out) \/
      (rows track <> [] /\ exists tr, track_online query keep track (stamp t f) t nt = Ok tr /\
         print_check tf t = Ok tt /\ loop rest tr files = out))).
Proof.
  intros H R HR. cbn [tt_loop] in H. unfold snap_rows. destruct (detect t) as [f|e] eqn:Ed; [|subst out; discriminate].
  destruct (empty f) eqn:Ee.
  - left. apply empty_true in Ee. rewrite Ee. eauto.
  - right. exists f. split; [reflexivity|]. split; [apply empty_false; assumption|].
    destruct (empty track) eqn:Et.
    + left. split; [apply empty_true; assumption|exact H].
    + right. split; [apply empty_false; assumption|].
      destruct (track_online query keep track (stamp t f) t nt) as [tr|e] eqn:Eo; [|subst out; discriminate].
      destruct (print_check tf t) as [[]|e] eqn:Ep; [|subst out; discriminate].
      exists tr. auto.
Qed.

Lemma track_online_window track P c t n R : track_wf track P -> snap_wf c t n ->
  track_online query keep track c t nt = Ok R -> forall s, In s (window t nt) -> has_time (rows track) s.
Proof.
  intros Hf Hc H.
  assert (Hdec : forall l, (forall s, In s l -> has_time (rows track) s) \/ ~ (forall s, In s l -> has_time (rows track) s)).
  { induction l as [|s l IH]; [left; intros ? []|].
    assert (has_time (rows track) s \/ ~ has_time (rows track) s) as [Hs|Hs].
    { unfold has_time. destruct (existsb (fun r => r_time r =? s) (rows track)) eqn:E.
      - left. apply existsb_exists in E. destruct E as (r & Hr & E). exists r. split; [assumption|lia].
      - right. intros (r & Hr & E'). assert (existsb (fun r => r_time r =? s) (rows track) = true); [|congruence].
        apply existsb_exists. exists r. split; [assumption|lia]. }
    - destruct IH as [IH|IH]; [left; intros x [<-|]; auto|right; intro H'; apply IH; intros; apply H'; right; assumption].
    - right. intro H'. apply Hs, H'. left. reflexivity. }
  destruct (Hdec (window t nt)) as [Hw|Hw]; [exact Hw|].
  rewrite (step_fail query keep track P c t nt Hf Hw) in H. discriminate.
Qed.

(** Rows of the result: the rows of the starting table and the stamped, relabelled rows of all snapshots visited. *)
Definition labelled (lab : Z -> Z -> Z) (t : Z) : list row :=
  map (fun r => with_id (at_time t r) (lab t (r_id r))) (snap_rows t).

Lemma run_inv times : forall track files files' R,
  NoDup times -> Forall good times -> state_wf track ->
  loop times track files = (files', Ok R) ->
  files' = files /\ state_wf R /\
  (rows track <> [] -> rows R <> []) /\
  exists lab, Permutation (rows R) (rows track ++ flat_map (labelled lab) times).
Proof.
  induction times as [|t rest IH]; intros track files files' R HND Hgood Hwf H.
  - cbn in H. injection H as <- <-. split; [reflexivity|]. split; [assumption|]. split; [auto|].
    exists (fun _ i => i). cbn. rewrite app_nil_r. reflexivity.
  - inversion HND as [|? ? Hnin HND']; subst. inversion Hgood as [|? ? Hg Hgood']; subst.
    destruct (tt_loop_cons_Ok t rest track files _ H R eq_refl)
      as [(He & _ & Hl)|(f & Hd & Hne & [(Htr & Hl)|(Htr & tr & Ho & _ & Hl)])].
    + destruct (IH track files files' R HND' Hgood' Hwf Hl) as (Hf & Hw & Hn & lab & Hp).
      split; [exact Hf|]. split; [exact Hw|]. split; [exact Hn|].
      exists lab. cbn. unfold labelled at 1. rewrite He. exact Hp.
    + destruct (first_wf t f (Hg f Hd) Hne) as (n & Hn & Hfw).
      destruct (IH _ files files' R HND' Hgood' (or_intror (ex_intro _ n Hfw)) Hl) as (Hf & Hw & Hnn & lab & Hp).
      split; [exact Hf|]. split; [exact Hw|]. split; [intro; congruence|].
      exists (fun s i => if s =? t then i else lab s i).
      cbn [flat_map]. rewrite Hp. rewrite Htr. cbn [app set_index rows].
      apply Permutation_app.
      * rewrite isort_perm. cbn. unfold labelled, snap_rows. rewrite Hd. rewrite Z.eqb_refl.
        reflexivity.
      * match goal with |- Permutation ?a ?b => assert (a = b) as ->; [|reflexivity] end. rewrite !flat_map_concat_map. f_equal. apply map_ext_in. intros s Hs. unfold labelled.
        apply map_ext. intro r. destruct (s =? t) eqn:E; [|reflexivity]. exfalso. apply Hnin. replace t with s by lia. exact Hs.
    + destruct Hwf as [->|(P & Hwf)]; [cbn in Htr; congruence|].
      destruct (stamp_wf t f (Hg f Hd) Hne) as (n & Hn & Hsw).
      destruct (step_Ok hav query Hq keep track P (stamp t f) t n nt Hwf Hsw
                  (track_online_window _ _ _ _ _ _ Hwf Hsw Ho)) as (R1 & pos & index & nearest & Ho' & Hw1 & Hp1 & _).
      rewrite Ho in Ho'. injection Ho' as <-.
      destruct (IH tr files files' R HND' Hgood' (or_intror (ex_intro _ _ Hw1)) Hl) as (Hf & Hw & Hnn & lab & Hp).
      split; [exact Hf|]. split; [exact Hw|]. split; [intro; apply Hnn, (track_wf_ne _ _ Hw1)|].
      exists (fun s i => if s =? t then new_label P index nearest i else lab s i).
      rewrite Hp, Hp1. cbn [flat_map]. rewrite <- app_assoc. apply Permutation_app_head. apply Permutation_app.
      * cbn. unfold labelled, snap_rows. rewrite Hd, Z.eqb_refl, map_map. reflexivity.
      * match goal with |- Permutation ?a ?b => assert (a = b) as ->; [|reflexivity] end. rewrite !flat_map_concat_map. f_equal. apply map_ext_in. intros s Hs. unfold labelled.
        apply map_ext. intro r. destruct (s =? t) eqn:E; [|reflexivity]. exfalso. apply Hnin. replace t with s by lia. exact Hs.
Qed.

(** A run over a longer list passes through the result of the run over a prefix. *)
Lemma run_app ts1 ts2 track files out R :
  loop (ts1 ++ ts2) track files = out -> snd out = Ok R ->
  exists R1 files1, loop ts1 track files = (files1, Ok R1) /\ loop ts2 R1 files1 = out.
Proof.
  revert track files. induction ts1 as [|t rest IH]; intros track files H HR.
  - cbn in *. eauto.
  - cbn [app] in H.
    destruct (tt_loop_cons_Ok t (rest ++ ts2) track files _ H R HR)
      as [(He & (f0 & Hf0) & Hl)|(f & Hd & Hne & [(Htr & Hl)|(Htr & tr & Ho & Hpc & Hl)])];
    destruct (IH _ _ Hl HR) as (R1 & files1 & H1 & H2); exists R1, files1; (split; [|exact H2]); cbn [tt_loop].
    + unfold snap_rows in He. rewrite Hf0 in *. unfold empty. rewrite He. exact H1.
    + rewrite Hd. apply empty_false in Hne. rewrite Hne. apply empty_true in Htr. rewrite Htr. exact H1.
    + rewrite Hd. apply empty_false in Hne. rewrite Hne. apply empty_false in Htr. rewrite Htr, Ho, Hpc. exact H1.
Qed.
End Run.

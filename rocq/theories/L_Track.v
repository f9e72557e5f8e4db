(** Lemmas on linking, renaming, merging; the effect of one online tracking step. *)
From Coq Require Import ZifyBool ZifyNat.
From Verif Require Import M_Base M_Tables S_Tracking L_Base L_Tables.
Open Scope Z_scope.

Lemma with_id_id r : with_id r (r_id r) = r.
Proof. destruct r; reflexivity. Qed.
Lemma with_id_with_id r i j : with_id (with_id r i) j = with_id r j.
Proof. reflexivity. Qed.

Lemma within_In i ans rad j : In j (within i ans rad) <->
  exists m d k r, j = (i + m)%nat /\ nth_error ans m = Some (d, k) /\ nth_error rad m = Some r /\
    nlt (nsub (Num (d * 6371)) r) (Num 0) = true.
Proof.
  revert i rad; induction ans as [|[d k] ans IH]; intros i rad; cbn [within].
  - split; [intros []|]. intros (m & d & k & r & _ & H & _). destruct m; discriminate.
  - destruct rad as [|r rad].
    + split; [intros []|]. intros (m & d' & k' & r & _ & _ & H & _). destruct m; discriminate.
    + assert (Hrest : In j (within (S i) ans rad) <-> exists m d k r,
         j = (i + S m)%nat /\ nth_error ans m = Some (d, k) /\ nth_error rad m = Some r /\
         nlt (nsub (Num (d * 6371)) r) (Num 0) = true).
      { rewrite IH. split; intros (m & d' & k' & r' & E & H); exists m, d', k', r'; (split; [lia|exact H]). }
      destruct (nlt (nsub (Num (d * 6371)) r) (Num 0)) eqn:E.
      * cbn [In]. rewrite Hrest. split.
        -- intros [<-|(m & d' & k' & r' & Ej & H)].
           ++ exists 0%nat, d, k, r. repeat split; try reflexivity; [lia|exact E].
           ++ exists (S m), d', k', r'. split; [exact Ej|exact H].
        -- intros (m & d' & k' & r' & Ej & H1 & H2 & H3). destruct m as [|m].
           ++ left. lia.
           ++ right. exists m, d', k', r'. auto.
      * rewrite Hrest. split.
        -- intros (m & d' & k' & r' & Ej & H). exists (S m), d', k', r'. split; [exact Ej|exact H].
        -- intros (m & d' & k' & r' & Ej & H1 & H2 & H3). destruct m as [|m].
           ++ cbn in H1, H2. injection H1 as <- <-. injection H2 as <-. congruence.
           ++ exists m, d', k', r'. auto.
Qed.

(** *** renaming *)
Definition memn (x : nat) (l : list nat) : bool := existsb (Nat.eqb x) l.
Lemma memn_In x l : memn x l = true <-> In x l.
Proof.
  unfold memn. rewrite existsb_exists. split.
  - intros (y & Hy & E). apply Nat.eqb_eq in E. subst. assumption.
  - intro H. exists x. split; [assumption|apply Nat.eqb_refl].
Qed.

(** label after all renames: a shifted label P+j goes to its neighbour when j is in [nearest] *)
Definition linked_label (P : Z) (index nearest : list nat) (l : Z) : Z :=
  if l <? P then l
  else if memn (Z.to_nat (l - P)) nearest
       then match nth_error index (Z.to_nat (l - P)) with Some k => Z.of_nat k | None => l end
       else l.

Lemma rename_fold P index nearest cur :
  0 <= P ->
  (forall near, In near nearest -> exists k, nth_error index near = Some k /\ Z.of_nat k < P) ->
  ids cur = used (rows cur) ->
  rename_eddies_in_time cur index nearest (P - 1)
  = Ok (set_index (map (fun r => with_id r (linked_label P index nearest (r_id r))) (rows cur))).
Proof.
  intro HP. revert cur; induction nearest as [|near t IH]; intros cur Hn Hc; cbn [rename_eddies_in_time].
  - f_equal. destruct cur as [rs is]; cbn in *. subst is. unfold set_index.
    assert (map (fun r => with_id r (linked_label P index [] (r_id r))) rs = rs) as ->; [|reflexivity].
    rewrite <- map_id. apply map_ext. intro r. unfold linked_label. cbn.
    destruct (r_id r <? P); apply with_id_id.
  - destruct (Hn near (or_introl eq_refl)) as (k & Hk & HkP). rewrite Hk.
    rewrite IH; [|intros; apply Hn; right; assumption|reflexivity].
    f_equal. f_equal. cbn [rename_id set_index rows]. rewrite map_map. apply map_ext. intro r.
    replace (Z.of_nat near + (P - 1) + 1) with (P + Z.of_nat near) by lia.
    destruct (r_id r =? P + Z.of_nat near) eqn:E.
    + cbn [r_id relabel]. unfold relabel.
      assert (linked_label P index t (Z.of_nat k) = linked_label P index (near :: t) (r_id r)) as ->; [|reflexivity].
      unfold linked_label. destruct (Z.of_nat k <? P) eqn:E1; [|lia].
      destruct (r_id r <? P) eqn:E2; [lia|].
      replace (Z.to_nat (r_id r - P)) with near by lia.
      unfold memn; cbn [existsb]. rewrite Nat.eqb_refl. cbn. rewrite Hk. reflexivity.
    + f_equal. unfold linked_label. destruct (r_id r <? P) eqn:E2; [reflexivity|].
      unfold memn; cbn [existsb]. destruct (Nat.eqb_spec (Z.to_nat (r_id r - P)) near); [lia|]. reflexivity.
Qed.

(** *** merging *)
Definition rank (L : list Z) (l : Z) : Z :=
  match index_of l L with Some c => Z.of_nat c | None => l end.

Lemma merge_Ok keep p n :
  (forall r, In r (rows p) -> In (r_id r) (ids p)) ->
  (forall r, In r (rows n) -> In (r_id r) (ids n)) ->
  let L := used (rows p ++ rows n) in
  merge_reindex keep p n =
    Ok (mkFrame (isort le_id_idx (map (fun r => with_id r (rank L (r_id r))) (rows p ++ rows n)))
                (zseq (length (ids (concat keep p n))))) /\
  (length L <= length (ids (concat keep p n)))%nat.
Proof.
  intros Hp Hn L.
  assert (Hlen : (length L <= length (ids (concat keep p n)))%nat).
  { apply NoDup_incl_length; [apply NoDup_sorted_lt, sort_uniq_sorted|].
    intros x Hx. unfold L in Hx. apply used_In in Hx. destruct Hx as (r & Hr & <-).
    unfold concat. cbn. destruct keep.
    - apply sort_uniq_In. apply in_or_app. apply in_app_or in Hr. destruct Hr; [left; auto|right; auto].
    - apply used_In. eauto. }
  split; [|exact Hlen].
  unfold merge_reindex. rewrite (set_levels_Ok _ _ (rank L)).
  - cbn. reflexivity.
  - cbn [rows ids set_index]. intros r Hr. cbn [concat rows] in Hr. change (used (rows (concat keep p n))) with L.
    destruct (index_of_In (r_id r) L) as (c & Hc).
    { apply used_In. eauto. }
    exists c. split; [exact Hc|]. unfold rank. rewrite Hc. apply zseq_nth.
    apply index_of_Some in Hc. apply (Nat.lt_le_trans _ (length L)); [|exact Hlen].
    apply nth_error_Some. congruence.
Qed.

(** *** sort orders *)
Lemma le_id_idx_total a b : le_id_idx a b = true \/ le_id_idx b a = true.
Proof. unfold le_id_idx. lia. Qed.
Lemma le_id_idx_trans a b c : le_id_idx a b = true -> le_id_idx b c = true -> le_id_idx a c = true.
Proof. unfold le_id_idx. lia. Qed.
Lemma le3_total a b : le_id_time_idx a b = true \/ le_id_time_idx b a = true.
Proof. unfold le_id_time_idx. lia. Qed.
Lemma le3_trans a b c : le_id_time_idx a b = true -> le_id_time_idx b c = true -> le_id_time_idx a c = true.
Proof. unfold le_id_time_idx. lia. Qed.
Lemma le3_row_le a b : le_id_time_idx a b = true <-> row_le a b.
Proof. unfold le_id_time_idx, row_le. lia. Qed.

Lemma sort3_sorted rs : sorted_table (isort le_id_time_idx rs).
Proof.
  assert (H := isort_sorted le_id_time_idx rs le3_total le3_trans).
  unfold sorted_table. induction H; constructor; [assumption|].
  eapply Forall_impl; [|eassumption]. intros b. apply le3_row_le.
Qed.

(** *** one online step *)
Record track_wf (f : frame) (P : nat) : Prop := {
  tw_pos : (0 < P)%nat;
  tw_ids : ids f = zseq P;
  tw_used : used (rows f) = zseq P;
  tw_first : has_first_point (rows f);
  tw_coord : forall r, In r (rows f) -> r_idx r = 0 -> has_position r;
  tw_sorted : sorted_table (rows f) }.

Record snap_wf (f : frame) (t : Z) (n : nat) : Prop := {
  sw_pos : (0 < n)%nat;
  sw_ids : ids f = zseq n;
  sw_used : used (rows f) = zseq n;
  sw_first : has_first_point (rows f);
  sw_coord : forall r, In r (rows f) -> r_idx r = 0 -> has_position r;
  sw_time : forall r, In r (rows f) -> r_time r = t }.

(** the times that the step at [t] looks up *)
Definition window (t nt : Z) : list Z := (t - 1) :: zrange (t - 1 - (if t - 1 <? nt then t - 1 else nt)) (t - 1).
Definition has_time (rs : list row) (t : Z) : Prop := exists r, In r rs /\ r_time r = t.

Lemma last_num_last l x : last_num (l ++ [Num x]) = Num x.
Proof. unfold last_num. rewrite fold_left_app. reflexivity. Qed.

Lemma exists_last' {A} (l : list A) : l <> [] -> exists l' a, l = l' ++ [a].
Proof. intro H. destruct (exists_last H) as (l' & a & ->). eauto. Qed.

(** the row that stands for track k in the search: the last row of the track with contour index 0 *)
Lemma point0_last f P k : track_wf f P -> In k (zseq P) ->
  exists pre r, point0 k (rows f) = pre ++ [r] /\ In r (rows f) /\ r_id r = k /\ r_idx r = 0 /\
    forall r', In r' (rows f) -> r_id r' = k -> r_time r' <= r_time r.
Proof.
  intros [Hpos Hids Hused Hfp Hco Hso] Hk.
  assert (Hne : point0 k (rows f) <> []).
  { generalize Hk; intro Hk'. rewrite <- Hused, used_In in Hk'. destruct Hk' as (r & Hr & E).
    destruct (Hfp r Hr) as (r0 & Hr0 & E1 & E2 & E3).
    assert (In r0 (point0 k (rows f))) as Hin.
    { unfold point0, group. rewrite filter_filter. apply filter_In. split; [assumption|lia]. }
    intro E0. rewrite E0 in Hin. destruct Hin. }
  destruct (exists_last' _ Hne) as (pre & r & E). exists pre, r. split; [exact E|].
  assert (Hin : In r (point0 k (rows f))) by (rewrite E; apply in_or_app; right; left; reflexivity).
  unfold point0, group in Hin. rewrite filter_filter in Hin. apply filter_In in Hin. destruct Hin as [Hin Hb].
  split; [exact Hin|]. split; [lia|]. split; [lia|].
  intros r' Hr' Ek. destruct (Hfp r' Hr') as (r0 & Hr0 & E1 & E2 & E3). rewrite <- E2.
  assert (Hin0 : In r0 (point0 k (rows f))).
  { unfold point0, group. rewrite filter_filter. apply filter_In. split; [assumption|lia]. }
  (* the filtered list is sorted, its last element is the largest *)
  assert (Hsub : forall (p : row -> bool) l, sorted_table l -> sorted_table (filter p l)).
  { intros p l H. induction H as [|a l Hl IH Ha]; cbn; [constructor|]. destruct (p a); [|exact IH].
    constructor; [exact IH|]. apply Forall_forall. intros y Hy. apply filter_In in Hy.
    rewrite Forall_forall in Ha. apply Ha, Hy. }
  assert (Hs : sorted_table (pre ++ [r])).
  { rewrite <- E. unfold point0, group. apply Hsub, Hsub, Hso. }
  rewrite E in Hin0. apply in_app_or in Hin0. destruct Hin0 as [Hin0|[<-|[]]]; [|lia].
  assert (Hle : row_le r0 r).
  { clear - Hs Hin0. induction pre as [|a pre IH]; [destruct Hin0|].
    cbn in Hs. inversion Hs as [|? ? Hs' Ha]; subst. destruct Hin0 as [<-|Hin0]; [|auto].
    rewrite Forall_forall in Ha. apply Ha. apply in_or_app. right. left. reflexivity. }
  unfold row_le in Hle. lia.
Qed.

Section Step.
Variable hav : Q * Q -> Q * Q -> Q.
Variable query : list (Q * Q) -> list (Q * Q) -> list (Q * nat).
Hypothesis Hq : query_ok hav query.

(** position of track k as the search sees it *)
Definition pos_of (r : row) : Q * Q :=
  match maxima_y (r_cols r), maxima_x (r_cols r) with Num y, Num x => (y, x) | _, _ => (0, 0)%Q end.

Lemma coord_pos r : has_position r -> coord r = Some (pos_of r).
Proof. intros (y & x & E1 & E2). unfold coord, pos_of. rewrite E1, E2. reflexivity. Qed.

Definition starts (f : frame) := filter (fun r => r_idx r =? 0) (rows f).
Definition radius (r : row) := radius_eddy (r_cols r).

(** The links of a step: the answer of the search and the row numbers found within their radius. *)
Lemma step_nearest f P c t n nt :
  track_wf f P -> snap_wf c t n -> (forall s, In s (window t nt) -> has_time (rows f) s) ->
  exists u pos index nearest,
    unlink f (t - 1) nt = Ok u /\ ids u = zseq P /\
    detect_nearest query u c = Ok (index, nearest) /\
    (forall k, In k (zseq P) -> latest_position (rows f) k (pos k)) /\
    (forall j, In j nearest -> (j < length (starts c))%nat) /\
    (forall j r, nth_error (starts c) j = Some r ->
       exists k, nth_error index j = Some k /\ (k < P)%nat /\
         (forall k', In k' (zseq P) -> (hav (pos_of r) (pos (Z.of_nat k)) <= hav (pos_of r) (pos k'))%Q) /\
         (In j nearest <-> nlt (nsub (Num (hav (pos_of r) (pos (Z.of_nat k)) * 6371)) (radius r)) (Num 0) = true)).
Proof.
  intros Hf Hc Hw.
  destruct Hf as [Hpos Hids Hused Hfp Hco Hso] eqn:EHf. 
  destruct (unlink_Ok f P (t - 1) nt Hids Hused Hfp Hw) as (u & Hu & Hui & tm & Hu0).
  set (pos := fun k => match sequence (map coord (map (fun k => mkRow k (tm k) 0 (last_cols (map r_cols (point0 k (rows f))))) [k])) with Some (p :: _) => p | _ => (0, 0)%Q end).
  assert (Hlast : forall k, In k (zseq P) -> exists r, In r (rows f) /\ r_id r = k /\ r_idx r = 0 /\
     (forall r', In r' (rows f) -> r_id r' = k -> r_time r' <= r_time r) /\
     maxima_y (last_cols (map r_cols (point0 k (rows f)))) = maxima_y (r_cols r) /\
     maxima_x (last_cols (map r_cols (point0 k (rows f)))) = maxima_x (r_cols r) /\ has_position r).
  { intros k Hk. destruct (point0_last f P k Hf Hk) as (pre & r & E & Hr & E1 & E2 & Hmax).
    exists r. split; [assumption|]. split; [assumption|]. split; [assumption|]. split; [assumption|].
    destruct (Hco r Hr E2) as (y & x & Ey & Ex). rewrite E, map_app. cbn.
    rewrite !map_app. cbn. rewrite Ey, Ex, !last_num_last. repeat split. exists y, x. auto. }
  assert (Hcoordu : forall k, In k (zseq P) ->
     coord (mkRow k (tm k) 0 (last_cols (map r_cols (point0 k (rows f))))) = Some (pos k)).
  { intros k Hk. unfold pos. cbn [map sequence].
    destruct (Hlast k Hk) as (r & _ & _ & _ & _ & Ey & Ex & (y & x & Hy & Hx)).
    unfold coord. cbn [r_cols]. rewrite Ey, Ex, Hy, Hx. reflexivity. }
  assert (Hlp : forall k, In k (zseq P) -> latest_position (rows f) k (pos k)).
  { intros k Hk. destruct (Hlast k Hk) as (r & Hr & E1 & E2 & Hmax & Ey & Ex & (y & x & Hy & Hx)).
    exists r. split; [assumption|]. split; [assumption|]. split; [assumption|].
    specialize (Hcoordu k Hk). unfold coord in Hcoordu. cbn [r_cols] in Hcoordu. rewrite Ey, Ex, Hy, Hx in Hcoordu.
    injection Hcoordu as <-. cbn. auto. }
  destruct Hc as [Hn Hcids Hcused Hcfp Hcco Hct].
  assert (Hcp : sequence (map coord (filter (fun r => r_idx r =? 0) (rows u))) = Some (map pos (zseq P))).
  { rewrite Hu0, map_map. apply sequence_map_Some. intros k Hk. apply Hcoordu, Hk. }
  assert (Hcn : sequence (map coord (starts c)) = Some (map pos_of (starts c))).
  { apply sequence_map_Some. intros r Hr. apply coord_pos. apply filter_In in Hr. apply Hcco; [tauto|lia]. }
  assert (Hxs : xs_index0 u = Ok (filter (fun r => r_idx r =? 0) (rows u))).
  { unfold xs_index0. destruct (filter (fun r => r_idx r =? 0) (rows u)) eqn:E; [|reflexivity].
    exfalso. rewrite Hu0 in E. destruct P; [lia|]. discriminate. }
  assert (Hxc : xs_index0 c = Ok (starts c)).
  { unfold xs_index0. change (filter (fun r => r_idx r =? 0) (rows c)) with (starts c).
    destruct (starts c) eqn:E; [|reflexivity]. exfalso.
    assert (In 0 (used (rows c))) as H0 by (rewrite Hcused; apply zseq_In; lia).
    apply used_In in H0. destruct H0 as (r & Hr & _). destruct (Hcfp r Hr) as (r0 & Hr0 & _ & _ & E3).
    assert (In r0 (starts c)) as Hin by (apply filter_In; split; [assumption|lia]). rewrite E in Hin. destruct Hin. }
  assert (Hne : map pos (zseq P) <> []) by (destruct P; [lia|discriminate]).
  destruct (Hq (map pos (zseq P)) (map pos_of (starts c)) Hne) as [Hlen Hans].
  set (ans := query (map pos (zseq P)) (map pos_of (starts c))) in *.
  exists u, pos, (map snd ans), (within 0 ans (map radius (starts c))).
  split; [exact Hu|]. split; [exact Hui|]. split.
  { unfold detect_nearest. rewrite Hxs, Hxc. cbn [bind]. rewrite Hcp, Hcn. reflexivity. }
  split; [exact Hlp|]. split.
  { intros j Hj. apply within_In in Hj. destruct Hj as (m & d & k & r & -> & Hm & _).
    cbn. rewrite map_length in Hlen. rewrite <- Hlen. apply nth_error_Some. congruence. }
  intros j r Hj.
  destruct (Hans j (pos_of r)) as (d & k & p & Ha & Hp & Hd & Hmin).
  { rewrite nth_error_map, Hj. reflexivity. }
  rewrite nth_error_map in Hp. destruct (nth_error (zseq P) k) as [kz|] eqn:Ek; [|discriminate].
  cbn in Hp. injection Hp as <-.
  assert (HkP : (k < P)%nat). { rewrite <- (zseq_length P). apply nth_error_Some. congruence. }
  rewrite zseq_nth in Ek by assumption. injection Ek as <-.
  exists k. split; [rewrite nth_error_map, Ha; reflexivity|]. split; [exact HkP|]. split.
  - intros k' Hk'. apply Hmin. apply in_map. exact Hk'.
  - assert (Hcmp : nlt (nsub (Num (d * 6371)) (radius r)) (Num 0) =
                   nlt (nsub (Num (hav (pos_of r) (pos (Z.of_nat k)) * 6371)) (radius r)) (Num 0)).
    { destruct (radius r) as [|q]; cbn; [reflexivity|]. f_equal.
      apply Bool.eq_iff_eq_true. rewrite !Qle_bool_iff. rewrite Hd. reflexivity. }
    rewrite within_In. split.
    + intros (m & d' & k' & r' & Em & H1 & H2 & H3). cbn in Em. subst m.
      rewrite Ha in H1. injection H1 as <- <-. rewrite nth_error_map, Hj in H2. cbn in H2. injection H2 as <-.
      rewrite <- Hcmp. exact H3.
    + intro H. exists j, d, k, (radius r). repeat split; [exact Ha|rewrite nth_error_map, Hj; reflexivity|].
      rewrite Hcmp. exact H.
Qed.
End Step.

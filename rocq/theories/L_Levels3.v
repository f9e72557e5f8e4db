(** The scan over all levels. *)
From Coq Require Import ZifyBool ZifyNat Lqa.
From Verif Require Import M_Base M_Tables S_Tracking S_Levels L_Base L_Tables L_Track L_Step L_Run L_Levels L_Levels2.
Open Scope Z_scope.

Lemma combine_seq_snd {A} (l : list A) s : map snd (combine (seq s (length l)) l) = l.
Proof. revert s. induction l as [|x l IH]; intro s; [reflexivity|]. cbn. f_equal. apply IH. Qed.
Lemma combine_seq_fst {A} (l : list A) s : map fst (combine (seq s (length l)) l) = seq s (length l).
Proof. revert s. induction l as [|x l IH]; intro s; [reflexivity|]. cbn. f_equal. apply IH. Qed.

Lemma merged_nil_l hav N : merged hav [] N N.
Proof.
  exists (fun _ => None), []. split; [discriminate|]. split; [intros d n _ _ j []|]. split; [reflexivity|].
  split; [intros k j j' H; destruct k; discriminate|].
  cbn [app]. rewrite filter_true by reflexivity. symmetry. apply combine_seq_snd.
Qed.
Lemma merged_nil_r hav J : merged hav J [] J.
Proof.
  exists (fun _ => None), J. split; [discriminate|]. split; [intros d n H; destruct d; discriminate|]. split; [reflexivity|].
  split; [|cbn; rewrite app_nil_r; reflexivity].
  intros k j j' H1 H2. right. split; [congruence|]. intros d n H; destruct d; discriminate.
Qed.
Lemma merged_In hav J N J' e : merged hav J N J' -> In e J' -> In e J \/ In e N.
Proof.
  intros (link & kept & _ & _ & Hlen & Hk & ->) He. apply in_app_or in He. destruct He as [He|He].
  - apply In_nth_error in He. destruct He as (k & Hke). destruct (nth_error J k) as [j|] eqn:Ej.
    + destruct (Hk k j e Ej Hke) as [(d & Hd & _)|(-> & _)]; [right|left]; eapply nth_error_In; eauto.
    + apply nth_error_None in Ej. assert (k < length kept)%nat by (apply nth_error_Some; congruence). lia.
  - right. apply in_map_iff in He. destruct He as ([d n] & <- & Hd). apply filter_In in Hd. destruct Hd as [Hd _]. apply in_combine_r in Hd. exact Hd.
Qed.
Lemma merged_ok hav J N J' : merged hav J N J' -> Forall eddy_ok J -> Forall eddy_ok N -> Forall eddy_ok J'.
Proof.
  intros H HJ HN. rewrite Forall_forall in *. intros e He. destruct (merged_In _ _ _ _ _ H He); auto.
Qed.
Lemma merged_ne hav J N J' : merged hav J N J' -> J <> [] -> J' <> [].
Proof. intros (link & kept & _ & _ & Hlen & _ & ->) HJ. destruct J; [congruence|]. destruct kept; discriminate. Qed.

Lemma table_nil_iff E : Forall eddy_ok E -> (table E = [] <-> E = []).
Proof.
  intro H. split; [|intros ->; reflexivity]. intro Ht. destruct H as [|e E He HE]; [reflexivity|].
  destruct He as (p & c0 & rest & -> & _). discriminate.
Qed.
Lemma table_empty E l : Forall eddy_ok E -> empty (mkFrame (table E) l) = match E with [] => true | _ => false end.
Proof.
  intro H. unfold empty. cbn [rows]. destruct E as [|e E]; [reflexivity|]. destruct (table (e :: E)) eqn:Et; [|reflexivity].
  apply table_nil_iff in Et; [discriminate|exact H].
Qed.

Section Scan.
Variable hav : Q * Q -> Q * Q -> Q.
Variable query : list (Q * Q) -> list (Q * Q) -> list (Q * nat).
Hypothesis Hq : query_ok hav query.
Variable keep : bool.

Lemma collision_inj J N index nearest : detect_spec hav J N index nearest -> no_collision hav J N ->
  forall d d', In d nearest -> In d' nearest -> nth_error index d = nth_error index d' -> d = d'.
Proof.
  intros (Hlen & Hnd & Hlt & Hs) Hc d d' Hd Hd' E.
  destruct (nth_error N d) as [n|] eqn:En; [|apply nth_error_None in En; apply Hlt in Hd; lia].
  destruct (nth_error N d') as [n'|] eqn:En'; [|apply nth_error_None in En'; apply Hlt in Hd'; lia].
  destruct (Hs d n En) as (k & j & Hk & Hj & _ & Hn). destruct (Hs d' n' En') as (k' & j' & Hk' & Hj' & _ & Hn').
  assert (k' = k) by congruence. subst k'. assert (j' = j) by congruence. subst j'.
  destruct (Nat.eq_dec d d') as [|Hne]; [assumption|]. exfalso. apply (Hc d d' n n' k j Hne En En' Hj); tauto.
Qed.

Lemma one_level J N L rest :
  Forall eddy_ok J -> Forall eddy_ok N -> (length J <= L)%nat -> no_collision hav J N ->
  exists J' L', merged hav J N J' /\ (length J' <= L')%nat /\
    level_loop query keep (mkFrame (table J) (zseq L)) (Ok (level_table N) :: rest) =
    level_loop query keep (mkFrame (table J') (zseq L')) rest.
Proof.
  intros HJ HN HL Hc. cbn [level_loop bind]. unfold level_table at 1. rewrite table_empty by exact HN.
  destruct N as [|n0 N'] eqn:EN; [exists J, L; split; [apply merged_nil_r|split; [exact HL|reflexivity]]|]. rewrite <- EN in *.
  rewrite table_empty by exact HJ.
  destruct J as [|j0 J0] eqn:EJ.
  - exists N, (length N). split; [apply merged_nil_l|]. split; [lia|reflexivity].
  - rewrite <- EJ in *.
    assert (HJne : J <> []) by (rewrite EJ; discriminate). assert (HNne : N <> []) by (rewrite EN; discriminate).
    destruct (detect_Ok hav query Hq J N HJ HN HJne HNne L HL) as (index & nearest & Hd & Hspec).
    unfold f, c in Hd. rewrite Hd. cbn [bind].
    assert (Hinj := collision_inj J N index nearest Hspec Hc).
    destruct (step_pairs hav keep J N HJ HN HJne L HL index nearest Hspec Hinj) as (n2 & p2 & L' & H1 & H2 & H3).
    unfold f, c in H1. rewrite H1. cbn [bind]. rewrite H2. cbn [bind].
    exists (map snd (qs J N L index nearest)), L'. split; [apply qs_merged; assumption|]. split; [exact H3|reflexivity].
Qed.

Lemma scan_Ok levels : forall J L,
  Forall eddy_ok J -> Forall (Forall eddy_ok) levels -> (length J <= L)%nat -> safe hav J levels ->
  exists E L', scanned hav J levels E /\ (length E <= L')%nat /\
    level_loop query keep (mkFrame (table J) (zseq L)) (map (fun N => Ok (level_table N)) levels) = Ok (mkFrame (table E) (zseq L')).
Proof.
  induction levels as [|N levels IH]; intros J L HJ HN HL Hs.
  - exists J, L. cbn. auto.
  - inversion HN as [|? ? HN1 HN2]; subst. destruct Hs as [Hc Hs]. cbn [map].
    destruct (one_level J N L (map (fun N => Ok (level_table N)) levels) HJ HN1 HL Hc) as (J' & L1 & Hm & HL1 & ->).
    destruct (IH J' L1) as (E & L' & H1 & H2 & H3); [eapply merged_ok; eauto|assumption|assumption|apply Hs; assumption|].
    exists E, L'. split; [cbn; eauto|]. auto.
Qed.

Lemma empty_frame_table : empty_frame = mkFrame (table []) (zseq 0).
Proof. reflexivity. Qed.

Lemma C14_lemma levels : Forall (Forall eddy_ok) levels -> safe hav [] levels ->
  exists R E, level_loop query keep empty_frame (map (fun N => Ok (level_table N)) levels) = Ok R /\
    scanned hav [] levels E /\ rows R = table E.
Proof.
  intros H1 H2. destruct (scan_Ok levels [] 0) as (E & L' & A & B & C); [constructor|assumption|reflexivity|assumption|].
  rewrite <- empty_frame_table in C. eauto.
Qed.

Lemma scanned_app J l1 l2 E : scanned hav J (l1 ++ l2) E <-> exists J1, scanned hav J l1 J1 /\ scanned hav J1 l2 E.
Proof.
  revert J. induction l1 as [|N l1 IH]; intro J; cbn.
  - split; [eauto|]. intros (J1 & -> & H). exact H.
  - split.
    + intros (J' & Hm & H). apply IH in H. destruct H as (J1 & A & B). eauto.
    + intros (J1 & (J' & Hm & A) & B). exists J'. split; [exact Hm|]. apply IH. eauto.
Qed.
Lemma safe_app J l1 l2 : safe hav J (l1 ++ l2) <-> safe hav J l1 /\ forall J1, scanned hav J l1 J1 -> safe hav J1 l2.
Proof.
  revert J. induction l1 as [|N l1 IH]; intro J; cbn.
  - split; [intro H; split; [exact I|intros J1 ->; exact H]|intros [_ H]; apply H; reflexivity].
  - split.
    + intros [Hc H]. split; [split; [exact Hc|]|].
      * intros J' Hm. apply (IH J'). apply H. exact Hm.
      * intros J1 (J' & Hm & Hs). apply (IH J'); [apply H; exact Hm|exact Hs].
    + intros [[Hc H1] H2]. split; [exact Hc|]. intros J' Hm. apply IH. split; [apply H1; exact Hm|]. intros J1 Hs. apply H2. eauto.
Qed.
Lemma scanned_ok levels : forall J E, Forall eddy_ok J -> Forall (Forall eddy_ok) levels -> scanned hav J levels E -> Forall eddy_ok E.
Proof.
  induction levels as [|N levels IH]; intros J E HJ HN; cbn; [intros ->; exact HJ|]. intros (J' & Hm & Hs). inversion HN; subst.
  eapply IH; [|eassumption|exact Hs]. eapply merged_ok; eauto.
Qed.

(** C17 *)
Lemma C17_lemma levels N :
  Forall (Forall eddy_ok) levels -> Forall eddy_ok N -> safe hav [] (levels ++ [N]) ->
  exists J E RJ RE (stays : nat -> bool) kept,
    level_loop query keep empty_frame (map (fun N => Ok (level_table N)) levels) = Ok RJ /\ rows RJ = table J /\
    level_loop query keep empty_frame (map (fun N => Ok (level_table N)) (levels ++ [N])) = Ok RE /\ rows RE = table E /\
    length kept = length J /\
    E = kept ++ map snd (filter (fun dn => stays (fst dn)) (combine (seq 0 (length N)) N)) /\
    (forall k j, nth_error J k = Some j ->
       nth_error kept k = Some j \/ exists d n, nth_error N d = Some n /\ near hav n j /\ nth_error kept k = Some n) /\
    (forall d n, nth_error N d = Some n -> (stays d = true <-> forall j, In j J -> ~ near hav n j)).
Proof.
  intros HL HN Hs. apply safe_app in Hs. destruct Hs as [Hs1 Hs2].
  destruct (scan_Ok levels [] 0) as (J & LJ & A & B & C); [constructor|assumption|reflexivity|assumption|].
  assert (HJ : Forall eddy_ok J) by (eapply scanned_ok; [|exact HL|exact A]; constructor).
  specialize (Hs2 J A). destruct Hs2 as [Hc _].
  assert (Happ : forall l1 l2 F, level_loop query keep F (l1 ++ l2) = (do F' <- level_loop query keep F l1; level_loop query keep F' l2)).
  { induction l1 as [|x l1 IH]; intros l2 F; [reflexivity|]. cbn [app level_loop]. destruct x as [cur|]; [|reflexivity]. cbn [bind].
    destruct (empty cur); [apply IH|]. destruct (empty F); [apply IH|]. destruct (detect_nearest query F cur) as [[i n]|]; [|reflexivity]. cbn [bind].
    destruct (update_better_eddy F cur i n) as [[p q]|]; [|reflexivity]. cbn [bind]. destruct (merge_reindex keep p q); [|reflexivity]. cbn [bind]. apply IH. }
  destruct (one_level J N LJ [] HJ HN B Hc) as (E & LE & Hm & HLE & Hstep).
  destruct Hm as (link & kept & H1 & H2 & H3 & H4 & H5).
  exists J, E, (mkFrame (table J) (zseq LJ)), (mkFrame (table E) (zseq LE)).
  exists (fun d => match link d with None => true | Some _ => false end), kept.
  split; [exact C|]. split; [reflexivity|]. split.
  { rewrite map_app, Happ. unfold empty_frame. change (mkFrame [] []) with (mkFrame (table []) (zseq 0)). rewrite C. cbn [bind]. exact Hstep. }
  split; [reflexivity|]. split; [exact H3|]. split; [exact H5|]. split.
  - intros k j Hj. destruct (nth_error kept k) as [j'|] eqn:Ek; [|apply nth_error_None in Ek; assert (k < length J)%nat by (apply nth_error_Some; congruence); lia].
    destruct (H4 k j j' Hj Ek) as [(d & Hd & Hl & _)|(-> & _)]; [|left; reflexivity].
    right. exists d, j'. split; [exact Hd|]. split; [|reflexivity]. destruct (H1 d j' k Hd Hl) as (j2 & Hj2 & Hn & _). congruence.
  - intros d n Hd. destruct (link d) as [k|] eqn:El.
    + split; [discriminate|]. intro H. destruct (H1 d n k Hd El) as (j & Hj & Hn & _). exfalso. apply (H j (nth_error_In _ _ Hj) Hn).
    + split; [intros _; apply H2 with d; assumption|reflexivity].
Qed.

(** C16 *)
Lemma single_safe j n : no_collision hav [j] [n].
Proof.
  intros d d' n1 n2 k j' Hne H1 H2. destruct d as [|[|d]], d' as [|[|d']]; try discriminate; congruence.
Qed.
Lemma single_step j n J' : near hav n j -> eddy_ok j -> merged hav [j] [n] J' ->
  (exceeds j n -> J' = [n]) /\ (~ exceeds j n -> J' = [j]).
Proof.
  intros Hn Hj (link & kept & H1 & H2 & H3 & H4 & ->).
  destruct (link 0%nat) as [k|] eqn:El.
  - destruct (H1 0%nat n k eq_refl El) as (j' & Hk & _). assert (k = 0%nat) by (destruct k as [|[|k]]; [reflexivity|discriminate|discriminate]). subst k.
    cbn. rewrite El. cbn. rewrite app_nil_r. destruct kept as [|j2 [|]]; try discriminate.
    destruct (H4 0%nat j j2 eq_refl eq_refl) as [(d & Hd & Hld & He)|(-> & Hno)].
    + assert (d = 0%nat) by (destruct d as [|[|d]]; [reflexivity|discriminate|discriminate]). subst d. cbn in Hd. injection Hd as <-. split; [reflexivity|contradiction].
    + split; [intro He; exfalso; apply (Hno 0%nat n eq_refl El He)|reflexivity].
  - exfalso. apply (H2 0%nat n eq_refl El j); [left; reflexivity|exact Hn].
Qed.
Lemma C16_lemma j n : eddy_ok j -> eddy_ok n -> near hav n j ->
  exists R, level_loop query keep empty_frame [Ok (level_table [j]); Ok (level_table [n])] = Ok R /\
    (exceeds j n -> rows R = table [n]) /\ (~ exceeds j n -> rows R = table [j]).
Proof.
  intros Hj Hn Hne. destruct (C14_lemma [[j]; [n]]) as (R & E & H1 & H2 & H3).
  - repeat constructor; assumption.
  - cbn. split; [intros d d' n1 n2 k j' _ _ _ H; destruct k; discriminate|]. intros J' Hm. split; [|auto].
    assert (J' = [j]) as ->; [|apply single_safe].
    destruct Hm as (link & kept & A & B & C & D & ->). destruct kept; [|discriminate]. cbn.
    destruct (link 0%nat) as [k|] eqn:El; [|reflexivity]. destruct (A 0%nat j k eq_refl El) as (j' & Hk & _). destruct k; discriminate.
  - exists R. split; [exact H1|]. cbn in H2. destruct H2 as (J1 & Hm1 & J2 & Hm2 & ->).
    assert (J1 = [j]) as ->.
    { destruct Hm1 as (link & kept & A & B & C & D & ->). destruct kept; [|discriminate]. cbn.
      destruct (link 0%nat) as [k|] eqn:El; [|reflexivity]. destruct (A 0%nat j k eq_refl El) as (j' & Hk & _). destruct k; discriminate. }
    rewrite H3. destruct (single_step j n J2 Hne Hj Hm2) as [X Y]. split; intro H; f_equal; auto.
Qed.

(** C15: two better eddies both claiming the only earlier one *)
Section Fuse.
Variables j n1 n2 : eddy.
Hypothesis Hj : eddy_ok j.
Hypothesis Hn1 : eddy_ok n1.
Hypothesis Hn2 : eddy_ok n2.
Hypothesis Hne1 : near hav n1 j.
Hypothesis Hne2 : near hav n2 j.
Hypothesis Hx1 : exceeds j n1.
Hypothesis Hx2 : exceeds j n2.

Lemma fuse_step rest :
  exists L', level_loop query keep empty_frame (Ok (level_table [j]) :: Ok (level_table [n1; n2]) :: rest) =
    level_loop query keep (mkFrame (isort le_id_idx (contour_rows 0 n1 ++ contour_rows 0 n2)) (zseq L')) rest.
Proof.
  cbn [level_loop bind]. unfold level_table at 1. rewrite table_empty by (repeat constructor; assumption).
  cbn [empty empty_frame rows]. unfold level_table at 1. rewrite table_empty by (repeat constructor; assumption).
  unfold level_table at 1. rewrite table_empty by (repeat constructor; assumption).
  assert (HJ : Forall eddy_ok [j]) by (repeat constructor; assumption). assert (HN : Forall eddy_ok [n1; n2]) by (repeat constructor; assumption).
  destruct (detect_Ok hav query Hq [j] [n1; n2] HJ HN ltac:(discriminate) ltac:(discriminate) 1 ltac:(cbn; lia)) as (index & nearest & Hd & Hspec).
  unfold f, c in Hd. unfold level_table at 1 in Hd. change (mkFrame (table [j]) (zseq 1)) with (level_table [j]) in Hd.
  change (mkFrame (table [n1; n2]) (map Z.of_nat (seq 0 (length [n1; n2])))) with (level_table [n1; n2]) in Hd. rewrite Hd. cbn [bind].
  assert (Hidx : forall d n, nth_error [n1; n2] d = Some n -> near hav n j -> nth_error index d = Some 0%nat /\ In d nearest).
  { intros d n Hdn Hnear. destruct (proj2 (proj2 (proj2 Hspec)) d n Hdn) as (k & j' & Hk & Hj' & _ & Hin).
    destruct k as [|k]; [|destruct k; discriminate]. cbn in Hj'. injection Hj' as <-. split; [exact Hk|apply Hin; exact Hnear]. }
  destruct (Hidx 0%nat n1 eq_refl Hne1) as [I0 In0]. destruct (Hidx 1%nat n2 eq_refl Hne2) as [I1 In1].
  assert (Hb : forall d, In d nearest -> bet [j] [n1; n2] index d = true).
  { intros d Hdn. apply (proj1 (proj2 (proj2 Hspec))) in Hdn. cbn in Hdn. destruct d as [|[|d]]; [| |lia]; unfold bet;
    rewrite ?I0, ?I1; cbn [nth_error]; apply exceedsb_iff; assumption. }
  assert (HK : forall d, In d nearest -> kk index d = 0).
  { intros d Hdn. apply (proj1 (proj2 (proj2 Hspec))) in Hdn. cbn in Hdn. destruct d as [|[|d]]; [| |lia]; unfold kk; rewrite ?I0, ?I1; reflexivity. }
  unfold update_better_eddy.
  assert (Hcu : used (rows (level_table [n1; n2])) = zseq 2).
  { unfold level_table. cbn [rows]. rewrite table_enum, blocks_used by (apply enum_nonempty, ok_ne, HN). rewrite enum_fst. apply sort_uniq_fix, zseq_sorted. }
  rewrite (update_counter_Ok (level_table [j]) (level_table [n1; n2]) 1 2); [|lia|reflexivity|reflexivity|exact Hcu]. cbn [bind].
  destruct (better_loop_Ok hav [j] [n1; n2] HJ HN 1 ltac:(cbn; lia) index nearest Hspec nearest []
     (set_index (map (fun r => with_id r (r_id r + Z.of_nat 1)) (rows (level_table [n1; n2])))) []) as (m2 & dn2 & B1 & B2 & B3 & B4).
  - apply Hspec.
  - apply Hspec.
  - reflexivity.
  - cbn [set_index rows level_table]. rewrite table_enum, (blocks_map (fun x => x + Z.of_nat 1)). reflexivity.
  - intros l Hl. cbn [set_index ids rows level_table]. rewrite table_enum, (blocks_map (fun x => x + Z.of_nat 1)), blocks_used.
    + apply sort_uniq_In. exact Hl.
    + intros p Hp. apply in_map_iff in Hp. destruct Hp as (q & <- & Hq'). apply (enum_nonempty _ (ok_ne _ HN)) in Hq'. exact Hq'.
  - unfold f in B1. change (mkFrame (table [j]) (zseq 1)) with (level_table [j]) in B1. rewrite B1. cbn [bind app].
    assert (Hrep : forall z, In z (map (kk index) (filter (bet [j] [n1; n2] index) nearest)) <-> z = 0).
    { intro z. rewrite in_map_iff. split.
      - intros (d & <- & Hd'). apply filter_In in Hd'. apply HK. apply Hd'.
      - intros ->. exists 0%nat. split; [apply HK; exact In0|]. apply filter_In. split; [exact In0|apply Hb; exact In0]. }
    destruct (map (kk index) (filter (bet [j] [n1; n2] index) nearest)) as [|z l] eqn:Er; [exfalso; apply (Hrep 0); reflexivity|].
    assert (Hdrop : drop_ids (z :: l) (level_table [j]) = Ok (mkFrame [] (zseq 1))).
    { unfold drop_ids, level_table. cbn [rows ids]. rewrite table_enum.
      assert (Hm0 : mem 0 (z :: l) = true) by (unfold mem; apply existsb_exists; exists 0; split; [apply Hrep; reflexivity|reflexivity]).
      rewrite (blocks_exists (fun x => mem x (z :: l))) by (apply enum_nonempty, ok_ne, HJ). cbn [enum length seq combine map existsb fst snd Z.of_nat].
      rewrite Hm0. cbn [orb]. f_equal. f_equal.
      rewrite (blocks_filter (fun x => negb (mem x (z :: l)))). cbn [enum length seq combine map filter fst snd Z.of_nat]. rewrite Hm0. reflexivity. }
    rewrite Hdrop. cbn [bind].
    assert (Hm2 : rows m2 = contour_rows 0 n1 ++ contour_rows 0 n2).
    { rewrite B3. unfold npairs. cbn [length seq flat_map]. unfold st. cbn [nth_error].
      rewrite !B2, (proj2 (memn_In _ _) In0), (proj2 (memn_In _ _) In1), !Hb, !HK by assumption. cbn. rewrite app_nil_r. reflexivity. }
    assert (Hmu : used (rows m2) = [0]).
    { rewrite B3, blocks_used by (apply npairs_ne; first [exact HN|cbn; lia]). unfold npairs. cbn [length seq flat_map]. unfold st. cbn [nth_error].
      rewrite !B2, (proj2 (memn_In _ _) In0), (proj2 (memn_In _ _) In1), !Hb, !HK by assumption. reflexivity. }
    destruct (merge_Ok keep (mkFrame [] (zseq 1)) m2) as [Hmg _].
    + intros r [].
    + intros r Hr. apply B4. rewrite B3 in Hr. apply blocks_In in Hr. destruct Hr as (l0 & e & Hin & Hr). apply contour_rows_In in Hr.
      destruct Hr as (-> & _). apply in_map_iff. exists (l0, e). auto.
    + rewrite Hmg. cbn [bind rows app]. eexists. f_equal. f_equal. rewrite Hmu, Hm2. f_equal.
      rewrite <- (map_id (contour_rows 0 n1 ++ contour_rows 0 n2)) at 2. apply map_ext_in. intros r Hr.
      assert (Hid : r_id r = 0) by (apply in_app_or in Hr; destruct Hr as [Hr|Hr]; apply contour_rows_In in Hr; apply Hr).
      rewrite Hid. cbn. rewrite <- Hid. apply with_id_id.
Qed.

Lemma fuse_lemma : exists R, level_loop query keep empty_frame [Ok (level_table [j]); Ok (level_table [n1; n2])] = Ok R /\
  Permutation (rows R) (contour_rows 0 n1 ++ contour_rows 0 n2).
Proof.
  destruct (fuse_step []) as (L' & H). eexists. split; [exact H|]. apply isort_perm.
Qed.

Lemma fuse_crash m : eddy_ok m -> near hav m n1 ->
  exists e, level_loop query keep empty_frame [Ok (level_table [j]); Ok (level_table [n1; n2]); Ok (level_table [m])] = Err e.
Proof.
  intros Hm Hnear. destruct (fuse_step [Ok (level_table [m])]) as (L' & ->).
  set (FR := isort le_id_idx (contour_rows 0 n1 ++ contour_rows 0 n2)).
  assert (HP : Permutation FR (contour_rows 0 n1 ++ contour_rows 0 n2)) by apply isort_perm.
  cbn [level_loop bind]. unfold level_table at 1. rewrite table_empty by (repeat constructor; assumption).
  destruct n1 as [|c1 r1] eqn:E1; [destruct Hn1 as (? & ? & ? & ? & _); discriminate|].
  destruct n2 as [|c2 r2] eqn:E2; [destruct Hn2 as (? & ? & ? & ? & _); discriminate|].
  destruct m as [|cm rm] eqn:Em; [destruct Hm as (? & ? & ? & ? & _); discriminate|].
  assert (Hne : FR <> []) by (intro E; rewrite E in HP; apply Permutation_nil in HP; discriminate).
  assert (empty (mkFrame FR (zseq L')) = false) as -> by (apply empty_false; exact Hne).
  (* first points of the fused table *)
  assert (Hfp : Permutation (filter (fun r => r_idx r =? 0) FR) [mkRow 0 0 0 c1; mkRow 0 0 0 c2]).
  { rewrite (filter_perm _ _ _ HP), filter_app, !first_contour. reflexivity. }
  set (fp := filter (fun r => r_idx r =? 0) FR) in *.
  assert (Hfl : length fp = 2%nat) by (rewrite (Permutation_length Hfp); reflexivity).
  assert (Hpos : forall r, In r fp -> exists p, coord r = Some p /\ (eddy_pos n1 p \/ eddy_pos n2 p)).
  { intros r Hr. apply (Permutation_in _ Hfp) in Hr. destruct Hr as [<-|[<-|[]]].
    - destruct Hn1 as (p & cc & rr & Ec & Hy & Hx). injection Ec as <- <-. exists p. unfold coord. cbn. rewrite Hy, Hx.
      split; [destruct p; reflexivity|]. left. rewrite E1. exists c1, r1. auto.
    - destruct Hn2 as (p & cc & rr & Ec & Hy & Hx). injection Ec as <- <-. exists p. unfold coord. cbn. rewrite Hy, Hx.
      split; [destruct p; reflexivity|]. right. rewrite E2. exists c2, r2. auto. }
  unfold detect_nearest, xs_index0. cbn [rows].
  fold fp. destruct fp as [|a0 [|a1 [|]]] eqn:Efp; try discriminate. rewrite <- Efp in *. cbn [bind].
  change (rows (level_table [cm :: rm])) with (table [cm :: rm]). rewrite table_enum, blocks_first. cbn [enum length seq combine map firsts flat_map fst snd app bind Z.of_nat].
  destruct (Hpos a0) as (p0 & Hp0 & _); [rewrite Efp; left; reflexivity|].
  destruct (Hpos a1) as (p1 & Hp1 & _); [rewrite Efp; right; left; reflexivity|].
  assert (Hseq : sequence (map coord [a0; a1]) = Some [p0; p1]) by (cbn; rewrite Hp0, Hp1; reflexivity).
  rewrite <- Efp in Hseq. rewrite Hseq. destruct Hm as (pm & cc & rr & Ec & Hy & Hx). injection Ec as <- <-.
  cbn [map]. unfold coord at 1. cbn [r_cols]. rewrite Hy, Hx. cbn [sequence].
  destruct (Hq [p0; p1] [(fst pm, snd pm)] ltac:(discriminate)) as [Hlen Hnth].
  destruct (Hnth 0%nat _ eq_refl) as (q & k & p & Hqk & Hkp & Hqe & Hmin).
  destruct (query [p0; p1] [(fst pm, snd pm)]) as [|[q' k'] [|]] eqn:Eq; try discriminate. cbn in Hqk. injection Hqk as -> ->.
  cbn [map snd]. destruct Hnear as (pm' & pn1 & rad & A1 & A2 & (cc & rr & Ec & Hrad) & A3). injection Ec as <- <-.
  assert (pm' = pm) as ->.
  { apply eddy_pos_fun in A1. rewrite <- A1. cbn. rewrite Hy, Hx. destruct pm; reflexivity. }
  assert (Hin1 : In pn1 [p0; p1]).
  { assert (Hc1 : In (mkRow 0 0 0 c1) [a0; a1]) by (rewrite <- Efp; apply (Permutation_in _ (Permutation_sym Hfp)); left; reflexivity).
    assert (Hcc : coord (mkRow 0 0 0 c1) = Some pn1).
    { destruct A2 as (cc & rr & Ec & Hy1 & Hxx1). injection Ec as <- <-. unfold coord. cbn. rewrite Hy1, Hxx1. destruct pn1; reflexivity. }
    destruct Hc1 as [E|[E|[]]]; rewrite E in *; [left|right; left]; congruence. }
  specialize (Hmin _ Hin1).
  assert (Hw : within 0 [(q, k)] [radius_eddy cm] = [0%nat]).
  { cbn [within]. rewrite Hrad. assert (nlt (nsub (Num (q * 6371)) (Num rad)) (Num 0) = true) as ->; [|reflexivity].
    cbn [nlt nsub]. rewrite negb_true_iff, <- not_true_iff_false, Qle_bool_iff. destruct pm as [ym xm]. cbn [fst snd] in *. lra. }
  cbn [r_cols]. rewrite Hw. cbn [bind].
  unfold update_better_eddy. match goal with |- context [update_counter ?a ?b] => destruct (update_counter a b) as [[n' prev]|e]; [|cbn; eauto] end. cbn [bind].
  cbn [better_loop nth_error].
  destruct k as [|k].
  - destruct (loc_check (Z.of_nat 0) (mkFrame FR (zseq L'))) as [[]|]; [|cbn; eauto]. cbn [bind].
    destruct (loc_check (Z.of_nat 0 + prev + 1) n') as [[]|]; [|cbn; eauto]. cbn [bind].
    unfold xs_id_index0. cbn [rows].
    assert (Hpe : filter (fun r => (r_id r =? Z.of_nat 0) && (r_idx r =? 0)) FR = [a0; a1]).
    { rewrite <- filter_filter. rewrite (filter_true (fun r => r_id r =? Z.of_nat 0)); [exact Efp|].
      intros r Hr. apply (Permutation_in _ HP) in Hr. apply in_app_or in Hr. destruct Hr as [Hr|Hr]; apply contour_rows_In in Hr; lia. }
    rewrite Hpe. cbn [bind]. match goal with |- context [filter ?p (rows n')] => destruct (filter p (rows n')) as [|ce [|]] end; cbn; eauto.
  - assert (Hloc : loc_check (Z.of_nat (S k)) (mkFrame FR (zseq L')) = Err KeyError).
    { unfold loc_check. cbn [rows]. destruct (existsb _ FR) eqn:Ex; [|reflexivity]. apply existsb_exists in Ex. destruct Ex as (r & Hr & E).
      apply (Permutation_in _ HP) in Hr. apply in_app_or in Hr. destruct Hr as [Hr|Hr]; apply contour_rows_In in Hr; lia. }
    rewrite Hloc. cbn. eauto.
Qed.
End Fuse.
End Scan.

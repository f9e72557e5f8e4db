(** One level merged into the table of the earlier levels. *)
From Coq Require Import ZifyBool ZifyNat Lqa.
From Verif Require Import M_Base M_Tables S_Tracking S_Levels L_Base L_Tables L_Track L_Step L_Levels.
Open Scope Z_scope.

Lemma flat_map_single {A B} (g : A -> list B) l d : NoDup l -> In d l -> (forall x, In x l -> x <> d -> g x = []) -> flat_map g l = g d.
Proof.
  induction l as [|a l IH]; intros Hnd Hin H; [destruct Hin|]. inversion Hnd as [|? ? Hni Hnd']; subst. cbn.
  destruct Hin as [->|Hin].
  - assert (flat_map g l = []) as ->; [|apply app_nil_r].
    assert (Hz : forall x, In x l -> g x = []) by (intros x Hx; apply H; [right; exact Hx|intros ->; contradiction]).
    clear -Hz. induction l as [|b l IH]; [reflexivity|]. cbn. rewrite Hz by (left; reflexivity). apply IH. intros; apply Hz; right; assumption.
  - rewrite (H a); [|left; reflexivity|intros ->; contradiction]. apply IH; [assumption|assumption|]. intros; apply H; [right|]; assumption.
Qed.
Lemma map_flat_map {A B C} (h : B -> C) (g : A -> list B) l : map h (flat_map g l) = flat_map (fun x => map h (g x)) l.
Proof. induction l as [|a l IH]; [reflexivity|]. cbn. rewrite map_app, IH. reflexivity. Qed.
Lemma flat_map_ext_in {A B} (g h : A -> list B) l : (forall x, In x l -> g x = h x) -> flat_map g l = flat_map h l.
Proof. induction l as [|a l IH]; intro H; [reflexivity|]. cbn. rewrite H by (left; reflexivity). f_equal. apply IH. intros; apply H; right; assumption. Qed.

Lemma within_sorted ans : forall rad i, StronglySorted lt (within i ans rad) /\ forall j, In j (within i ans rad) -> (i <= j)%nat.
Proof.
  induction ans as [|[d k] ans IH]; intros rad i; [split; [constructor|intros j []]|].
  destruct rad as [|r rad]; [split; [constructor|intros j []]|]. cbn [within].
  destruct (IH rad (S i)) as [H1 H2]. destruct (nlt _ _).
  - split.
    + constructor; [exact H1|]. apply Forall_forall. intros j Hj. apply H2 in Hj. lia.
    + intros j [<-|Hj]; [lia|]. apply H2 in Hj. lia.
  - split; [exact H1|]. intros j Hj. apply H2 in Hj. lia.
Qed.
Lemma within_NoDup ans rad i : NoDup (within i ans rad).
Proof.
  destruct (within_sorted ans rad i) as [H _]. induction H as [|a l Hs IH Ha]; constructor; [|exact IH].
  intro Hin. rewrite Forall_forall in Ha. specialize (Ha a Hin). lia.
Qed.

Section Step.
Variable hav : Q * Q -> Q * Q -> Q.
Variable query : list (Q * Q) -> list (Q * Q) -> list (Q * nat).
Hypothesis Hq : query_ok hav query.
Variable keep : bool.
Variables J N : list eddy.
Hypothesis HJ : Forall eddy_ok J.
Hypothesis HN : Forall eddy_ok N.
Hypothesis HJne : J <> [].
Hypothesis HNne : N <> [].
Variable L : nat.
Hypothesis HL : (length J <= L)%nat.

Definition pos_e (e : eddy) : Q * Q :=
  match e with
  | c :: _ => match maxima_y c, maxima_x c with Num y, Num x => (y, x) | _, _ => (0, 0)%Q end
  | [] => (0, 0)%Q
  end.
Lemma eddy_pos_fun e p : eddy_pos e p -> pos_e e = p.
Proof. intros (c & rest & -> & Hy & Hx). cbn. rewrite Hy, Hx. destruct p; reflexivity. Qed.
Lemma eddy_ok_pos e : eddy_ok e -> eddy_pos e (pos_e e).
Proof. intros (p & Hp). rewrite (eddy_pos_fun e p Hp). exact Hp. Qed.
Lemma eddy_ok_ne e : eddy_ok e -> e <> [].
Proof. intros (p & c & rest & -> & _). discriminate. Qed.
Lemma ok_ne E : Forall eddy_ok E -> Forall (fun e => e <> []) E.
Proof. intro H. eapply Forall_impl; [|exact H]. exact eddy_ok_ne. Qed.

Lemma firsts_enum_coord E : Forall eddy_ok E -> sequence (map coord (firsts (enum E))) = Some (map pos_e E).
Proof.
  intro H. unfold enum. generalize 0%nat as s. induction H as [|e E He HE IH]; intro s; [reflexivity|].
  destruct He as (p & c & rest & -> & Hy & Hx). cbn [length seq combine map firsts flat_map fst snd app].
  cbn [sequence coord r_cols map]. unfold coord at 1. cbn [r_cols]. rewrite Hy, Hx. fold (firsts (map (fun ke : nat * eddy => (Z.of_nat (fst ke), snd ke)) (combine (seq (S s) (length E)) E))).
  rewrite IH. cbn. rewrite Hy, Hx. reflexivity.
Qed.
Lemma firsts_enum_ne E : Forall eddy_ok E -> E <> [] -> firsts (enum E) <> [].
Proof. intros H Hne. destruct H as [|e E (p & c & rest & -> & _) HE]; [congruence|]. discriminate. Qed.
Lemma firsts_enum_rad E : Forall eddy_ok E ->
  map (fun r => radius_eddy (r_cols r)) (firsts (enum E)) = map (fun e : eddy => match e with c :: _ => radius_eddy c | [] => NaN end) E.
Proof.
  intro H. unfold enum. generalize 0%nat as s. induction H as [|e E He HE IH]; intro s; [reflexivity|].
  destruct He as (p & c & rest & -> & Hy & Hx). cbn. f_equal. apply IH.
Qed.

Definition f := mkFrame (table J) (zseq L).
Definition c := level_table N.

Definition detect_spec (index nearest : list nat) : Prop :=
  length index = length N /\ NoDup nearest /\ (forall d, In d nearest -> (d < length N)%nat) /\
  forall d n, nth_error N d = Some n ->
    exists k j, nth_error index d = Some k /\ nth_error J k = Some j /\ closest hav n j J /\ (In d nearest <-> near hav n j).

Lemma detect_Ok : exists index nearest, detect_nearest query f c = Ok (index, nearest) /\ detect_spec index nearest.
Proof.
  unfold detect_nearest, xs_index0, f, c, level_table. cbn [rows]. rewrite !table_enum, !blocks_first.
  destruct (firsts (enum J)) as [|rj fj] eqn:EJ; [exfalso; apply (firsts_enum_ne J); assumption|].
  destruct (firsts (enum N)) as [|rn fn] eqn:EN; [exfalso; apply (firsts_enum_ne N); assumption|].
  cbn [bind]. rewrite <- EJ, <- EN, !firsts_enum_coord, firsts_enum_rad by assumption.
  assert (HPne : map pos_e J <> []) by (destruct J; [congruence|discriminate]).
  destruct (Hq (map pos_e J) (map pos_e N) HPne) as [Hlen Hnth]. rewrite map_length in Hlen.
  eexists _, _. split; [reflexivity|]. split; [rewrite map_length; exact Hlen|]. split; [apply within_NoDup|].
  assert (Hin : forall d, In d (within 0 (query (map pos_e J) (map pos_e N)) (map (fun e : eddy => match e with c :: _ => radius_eddy c | [] => NaN end) N)) <->
     exists q k r, nth_error (query (map pos_e J) (map pos_e N)) d = Some (q, k) /\
       nth_error (map (fun e : eddy => match e with c :: _ => radius_eddy c | [] => NaN end) N) d = Some r /\ nlt (nsub (Num (q * 6371)) r) (Num 0) = true).
  { intro d. rewrite within_In. split; [intros (m & q & k & r & -> & H1 & H2 & H3); exists q, k, r; auto|intros (q & k & r & H); exists d, q, k, r; auto]. }
  split.
  - intros d Hd. apply Hin in Hd. destruct Hd as (q & k & r & H1 & _). rewrite <- Hlen. apply nth_error_Some. congruence.
  - intros d n Hd. assert (Hd' : nth_error (map pos_e N) d = Some (pos_e n)) by (rewrite nth_error_map, Hd; reflexivity).
    destruct (Hnth d _ Hd') as (q & k & p & Hqd & Hk & Hqe & Hmin).
    rewrite nth_error_map in Hk. destruct (nth_error J k) as [j|] eqn:Ej; [|discriminate]. cbn in Hk. injection Hk as <-.
    exists k, j. split; [rewrite nth_error_map, Hqd; reflexivity|]. split; [exact Ej|]. split.
    + intros pn pj j' pj' Hpn Hpj Hj' Hpj'. apply eddy_pos_fun in Hpn, Hpj, Hpj'. subst. apply Hmin. apply in_map. exact Hj'.
    + rewrite Hin. assert (Hon : eddy_ok n) by (rewrite Forall_forall in HN; apply HN; eapply nth_error_In; eauto).
      assert (Hoj : eddy_ok j) by (rewrite Forall_forall in HJ; apply HJ; eapply nth_error_In; eauto).
      split.
      * intros (q' & k' & r & H1 & H2 & H3). rewrite Hqd in H1. injection H1 as <- <-. rewrite nth_error_map, Hd in H2. cbn in H2. injection H2 as <-.
        destruct Hon as (p & cn & rest & -> & Hy & Hx). destruct (radius_eddy cn) as [|rad] eqn:Er; [discriminate|].
        exists p, (pos_e j), rad. split; [exists cn, rest; auto|]. split; [apply eddy_ok_pos; exact Hoj|]. split; [exists cn, rest; auto|].
        cbn in H3. rewrite (eddy_pos_fun (cn :: rest) p) in Hqe by (exists cn, rest; auto).
        rewrite negb_true_iff, <- not_true_iff_false, Qle_bool_iff in H3. rewrite <- Hqe. lra.
      * intros (pn & pj & rad & Hpn & Hpj & (cn & rest & -> & Hrad) & Hlt). apply eddy_pos_fun in Hpn, Hpj. subst.
        exists q, k, (Num rad). split; [exact Hqd|]. split; [rewrite nth_error_map, Hd; cbn; congruence|].
        cbn [nlt nsub]. rewrite <- Hqe in Hlt. rewrite negb_true_iff, <- not_true_iff_false, Qle_bool_iff. lra.
Qed.

(** ** the loop *)
Section Loop.
Variables index nearest : list nat.
Hypothesis Hspec : detect_spec index nearest.

Definition first_col (g : cols -> num) (e : eddy) : num := match e with c0 :: _ => g c0 | [] => NaN end.
Definition kk (d : nat) : Z := match nth_error index d with Some k => Z.of_nat k | None => 0 end.
Definition exceedsb (j n : eddy) : bool :=
  ngt (first_col contour_ellipse_error j) (first_col contour_ellipse_error n) &&
  ngt (first_col contour_gaussian_error j) (first_col contour_gaussian_error n).
Definition bet (d : nat) : bool :=
  match nth_error N d, nth_error index d with
  | Some n, Some k => match nth_error J k with Some j => exceedsb j n | None => false end
  | _, _ => false
  end.
Definition st (dn : list nat) (d : nat) : pairs :=
  match nth_error N d with
  | None => []
  | Some n => if memn d dn then (if bet d then [(kk d, n)] else []) else [(Z.of_nat d + Z.of_nat L, n)]
  end.
Definition npairs (dn : list nat) : pairs := flat_map (st dn) (seq 0 (length N)).

Lemma ngt_true x y : ngt x y = true <-> exists a b, x = Num a /\ y = Num b /\ (b < a)%Q.
Proof.
  split.
  - destruct x as [|a], y as [|b]; try discriminate. intro H. exists a, b. repeat split.
    unfold ngt, nlt in H. rewrite negb_true_iff, <- not_true_iff_false, Qle_bool_iff in H. lra.
  - intros (a & b & -> & -> & H). unfold ngt, nlt. rewrite negb_true_iff, <- not_true_iff_false, Qle_bool_iff. lra.
Qed.
Lemma exceedsb_iff j n : exceedsb j n = true <-> exceeds j n.
Proof.
  unfold exceedsb. rewrite andb_true_iff, !ngt_true. split.
  - intros [(a & a' & H1 & H2 & H3) (b & b' & H4 & H5 & H6)]. destruct j as [|cj rj]; [discriminate|]. destruct n as [|cn rn]; [discriminate|].
    exists cj, rj, cn, rn, a, b, a', b'. repeat split; assumption.
  - intros (cj & rj & cn & rn & a & b & a' & b' & -> & -> & E1 & E2 & H1 & E3 & E4 & H2). split; [exists a, a'|exists b, b']; auto.
Qed.

Lemma npairs_In dn l e : In (l, e) (npairs dn) <->
  exists d, nth_error N d = Some e /\ ((memn d dn = true /\ bet d = true /\ l = kk d) \/ (memn d dn = false /\ l = Z.of_nat d + Z.of_nat L)).
Proof.
  unfold npairs. rewrite in_flat_map. split.
  - intros (d & _ & H). unfold st in H. destruct (nth_error N d) as [n|] eqn:E; [|destruct H].
    destruct (memn d dn) eqn:Em; [destruct (bet d) eqn:Eb; [|destruct H]|]; destruct H as [H|[]]; injection H as <- <-; exists d; split; auto.
  - intros (d & Hd & H). exists d. split; [apply in_seq; split; [lia|]; cbn; apply nth_error_Some; congruence|].
    unfold st. rewrite Hd. destruct H as [(-> & -> & ->)|(-> & ->)]; left; reflexivity.
Qed.
Lemma npairs_ne dn : nonempty (npairs dn).
Proof.
  intros [l e] H. apply npairs_In in H. destruct H as (d & Hd & _). cbn. assert (H := ok_ne N HN). rewrite Forall_forall in H. apply H. eapply nth_error_In; eauto.
Qed.
Lemma kk_lt d : (d < length N)%nat -> 0 <= kk d < Z.of_nat (length J).
Proof.
  intro Hd. destruct (nth_error N d) as [n|] eqn:E; [|apply nth_error_None in E; lia].
  destruct Hspec as (_ & _ & _ & H). destruct (H d n E) as (k & j & Hk & Hj & _). unfold kk. rewrite Hk.
  assert (k < length J)%nat by (apply nth_error_Some; congruence). lia.
Qed.

Lemma xs_pairs (ps : pairs) l c0 e : filter (fun p => fst p =? l) ps = [(l, c0 :: e)] ->
  filter (fun r => (r_id r =? l) && (r_idx r =? 0)) (blocks ps) = [mkRow l 0 0 c0].
Proof.
  intro H. rewrite <- filter_filter. rewrite (blocks_filter (fun x => x =? l)), H, blocks_first. reflexivity.
Qed.
Lemma enum_sel E k e : nth_error E k = Some e -> filter (fun p => fst p =? Z.of_nat k) (enum E) = [(Z.of_nat k, e)].
Proof.
  assert (G : forall s, nth_error E k = Some e ->
     filter (fun p : Z * eddy => fst p =? Z.of_nat (s + k)) (map (fun ke => (Z.of_nat (fst ke), snd ke)) (combine (seq s (length E)) E)) = [(Z.of_nat (s + k), e)]);
    [|apply (G 0%nat)].
  revert k. induction E as [|x E IH]; intros k s H; [destruct k; discriminate|]. cbn. destruct k as [|k].
  - cbn in H. injection H as ->. rewrite Nat.add_0_r, Z.eqb_refl. f_equal. apply filter_none.
    intros p Hp. apply in_map_iff in Hp. destruct Hp as ((i & y) & <- & Hiy). apply in_combine_l, in_seq in Hiy. cbn. lia.
  - destruct (Z.of_nat s =? Z.of_nat (s + S k)) eqn:E1; [lia|]. replace (s + S k)%nat with (S s + k)%nat by lia. apply IH. exact H.
Qed.
Lemma npairs_sel dn d n : nth_error N d = Some n -> memn d dn = false ->
  filter (fun p => fst p =? Z.of_nat d + Z.of_nat L) (npairs dn) = [(Z.of_nat d + Z.of_nat L, n)].
Proof.
  intros Hd Hm. unfold npairs. rewrite filter_flat_map. rewrite (flat_map_single _ _ d).
  - unfold st. rewrite Hd, Hm. cbn. rewrite Z.eqb_refl. reflexivity.
  - apply seq_NoDup.
  - apply in_seq. split; [lia|]. cbn. apply nth_error_Some. congruence.
  - intros x Hx Hne. apply in_seq in Hx. unfold st. destruct (nth_error N x) as [m|]; [|reflexivity].
    assert (Hk := kk_lt x ltac:(lia)).
    destruct (memn x dn); [destruct (bet x); [|reflexivity]|]; cbn.
    + destruct (kk x =? Z.of_nat d + Z.of_nat L) eqn:E; [lia|reflexivity].
    + destruct (Z.of_nat x + Z.of_nat L =? Z.of_nat d + Z.of_nat L) eqn:E; [lia|reflexivity].
Qed.

Lemma filter_existsb {A} (p : A -> bool) l x : filter p l = [x] -> existsb p l = true.
Proof.
  intro H. apply existsb_exists. exists x. assert (Hin : In x (filter p l)) by (rewrite H; left; reflexivity). apply filter_In in Hin. exact Hin.
Qed.

Lemma memn_cons x d dn : memn x (d :: dn) = (x =? d)%nat || memn x dn.
Proof. reflexivity. Qed.

Lemma better_loop_Ok : forall todo dn n replaced,
  NoDup todo -> (forall d, In d todo -> (d < length N)%nat) -> (forall d, In d todo -> memn d dn = false) ->
  rows n = blocks (npairs dn) -> (forall l, In l (map fst (npairs dn)) -> In l (ids n)) ->
  exists n2 dn2, better_loop f n index todo (Z.of_nat L - 1) replaced = Ok (n2, replaced ++ map kk (filter bet todo)) /\
    (forall d, memn d dn2 = memn d dn || memn d todo) /\
    rows n2 = blocks (npairs dn2) /\ (forall l, In l (map fst (npairs dn2)) -> In l (ids n2)).
Proof.
  induction todo as [|d todo IH]; intros dn n replaced Hnd Hlt Hdn Hrows Hids.
  - exists n, dn. cbn. rewrite app_nil_r. repeat split; try assumption. intro d. rewrite orb_false_r. reflexivity.
  - inversion Hnd as [|? ? Hni Hnd']; subst.
    assert (Hd : (d < length N)%nat) by (apply Hlt; left; reflexivity).
    destruct (nth_error N d) as [nd|] eqn:End; [|apply nth_error_None in End; lia].
    destruct (proj2 (proj2 (proj2 Hspec)) d nd End) as (k & j & Hk & Hj & _).
    assert (Hnd0 : memn d dn = false) by (apply Hdn; left; reflexivity).
    assert (Hsc : Z.of_nat d + (Z.of_nat L - 1) + 1 = Z.of_nat d + Z.of_nat L) by lia.
    cbn [better_loop]. rewrite Hk, Hsc.
    assert (HselJ := enum_sel J k j Hj). assert (HselN := npairs_sel dn d nd End Hnd0).
    assert (Hjne : exists cj rj, j = cj :: rj).
    { assert (Hoj := ok_ne J HJ). rewrite Forall_forall in Hoj. specialize (Hoj j (nth_error_In _ _ Hj)). destruct j; [congruence|eauto]. }
    assert (Hnne : exists cn rn, nd = cn :: rn).
    { assert (Hon := ok_ne N HN). rewrite Forall_forall in Hon. specialize (Hon nd (nth_error_In _ _ End)). destruct nd; [congruence|eauto]. }
    destruct Hjne as (cj & rj & ->). destruct Hnne as (cn & rn & ->).
    assert (HneJ := enum_nonempty J (ok_ne J HJ)). assert (HneN := npairs_ne dn).
    unfold loc_check, xs_id_index0. change (rows f) with (table J). rewrite table_enum, Hrows.
    rewrite (blocks_exists (fun x => x =? Z.of_nat k)) by exact HneJ.
    rewrite (filter_existsb _ _ _ HselJ). cbn [bind].
    rewrite (blocks_exists (fun x => x =? Z.of_nat d + Z.of_nat L)) by exact HneN.
    rewrite (filter_existsb _ _ _ HselN). cbn [bind].
    rewrite (xs_pairs _ _ _ _ HselJ), (xs_pairs _ _ _ _ HselN). cbn [bind map r_cols array_gt].
    assert (Hbet : bet d = (ngt (contour_ellipse_error cj) (contour_ellipse_error cn) && ngt (contour_gaussian_error cj) (contour_gaussian_error cn))%bool).
    { unfold bet. rewrite End, Hk, Hj. reflexivity. }
    assert (Hkk : kk d = Z.of_nat k) by (unfold kk; rewrite Hk; reflexivity).
    assert (Hg2 : (if ngt (contour_ellipse_error cj) (contour_ellipse_error cn) then Ok (ngt (contour_gaussian_error cj) (contour_gaussian_error cn)) else Ok false) = Ok (bet d)).
    { rewrite Hbet. destruct (ngt (contour_ellipse_error cj) _); reflexivity. }
    rewrite Hg2. cbn [bind]. cbn [filter]. destruct (bet d) eqn:Eb.
    + assert (Hrows' : rows (rename_id (Z.of_nat d + Z.of_nat L) (Z.of_nat k) n) = blocks (npairs (d :: dn))).
      { unfold rename_id. cbn [set_index rows]. rewrite Hrows.
        rewrite (map_ext (fun r => if r_id r =? Z.of_nat d + Z.of_nat L then relabel r (Z.of_nat k) else r)
                   (fun r => with_id r (if r_id r =? Z.of_nat d + Z.of_nat L then Z.of_nat k else r_id r))).
        2: { intro r. destruct (_ =? _); [reflexivity|symmetry; apply with_id_id]. }
        rewrite (blocks_map (fun x => if x =? Z.of_nat d + Z.of_nat L then Z.of_nat k else x)). f_equal.
        unfold npairs. rewrite map_flat_map. apply flat_map_ext_in. intros x Hx. apply in_seq in Hx. unfold st.
        destruct (nth_error N x) as [m|] eqn:Em; [|reflexivity]. rewrite memn_cons.
        destruct (x =? d)%nat eqn:Exd.
        - assert (x = d) by lia. subst x. rewrite Hnd0, Eb, Hkk. cbn. rewrite Z.eqb_refl. reflexivity.
        - cbn [orb]. assert (Hkx := kk_lt x ltac:(lia)).
          destruct (memn x dn); [destruct (bet x); [|reflexivity]|]; cbn.
          + destruct (kk x =? Z.of_nat d + Z.of_nat L) eqn:E; [lia|reflexivity].
          + destruct (Z.of_nat x + Z.of_nat L =? Z.of_nat d + Z.of_nat L) eqn:E; [lia|reflexivity]. }
      destruct (IH (d :: dn) (rename_id (Z.of_nat d + Z.of_nat L) (Z.of_nat k) n) (replaced ++ [Z.of_nat k]) Hnd') as (n2 & dn2 & H1 & H2 & H3 & H4).
      * intros x Hx. apply Hlt. right. exact Hx.
      * intros x Hx. rewrite memn_cons. apply orb_false_iff. split; [apply Nat.eqb_neq; intros ->; contradiction|apply Hdn; right; exact Hx].
      * exact Hrows'.
      * intros l Hl. change (ids (rename_id (Z.of_nat d + Z.of_nat L) (Z.of_nat k) n)) with (used (rows (rename_id (Z.of_nat d + Z.of_nat L) (Z.of_nat k) n))).
        rewrite Hrows', blocks_used by apply npairs_ne. apply sort_uniq_In. exact Hl.
      * exists n2, dn2. split; [rewrite H1; cbn [map]; rewrite Hkk, <- app_assoc; reflexivity|]. split; [|split; assumption].
        intro x. rewrite H2, !memn_cons. destruct (x =? d)%nat, (memn x dn), (memn x todo); reflexivity.
    + assert (Hdrop : drop_ids [Z.of_nat d + Z.of_nat L] n = Ok (mkFrame (blocks (npairs (d :: dn))) (ids n))).
      { unfold drop_ids, mem. rewrite Hrows.
        assert (existsb (fun r => existsb (Z.eqb (r_id r)) [Z.of_nat d + Z.of_nat L]) (blocks (npairs dn)) = true) as ->.
        { rewrite (blocks_exists (fun x => existsb (Z.eqb x) [Z.of_nat d + Z.of_nat L])) by exact HneN.
          apply existsb_exists. exists (Z.of_nat d + Z.of_nat L, cn :: rn). split.
          - assert (Hin : In (Z.of_nat d + Z.of_nat L, cn :: rn) (filter (fun p => fst p =? Z.of_nat d + Z.of_nat L) (npairs dn))) by (rewrite HselN; left; reflexivity).
            apply filter_In in Hin. apply Hin.
          - cbn. rewrite Z.eqb_refl. reflexivity. }
        do 2 f_equal. rewrite (blocks_filter (fun x => negb (existsb (Z.eqb x) [Z.of_nat d + Z.of_nat L]))). f_equal.
        unfold npairs. rewrite filter_flat_map. apply flat_map_ext_in. intros x Hx. apply in_seq in Hx. unfold st.
        destruct (nth_error N x) as [m|] eqn:Em; [|reflexivity]. rewrite memn_cons.
        destruct (x =? d)%nat eqn:Exd.
        - assert (x = d) by lia. subst x. rewrite Hnd0, Eb. cbn. rewrite Z.eqb_refl. reflexivity.
        - cbn [orb]. assert (Hkx := kk_lt x ltac:(lia)).
          destruct (memn x dn); [destruct (bet x); [|reflexivity]|]; cbn.
          + destruct (kk x =? Z.of_nat d + Z.of_nat L) eqn:E; [lia|reflexivity].
          + destruct (Z.of_nat x + Z.of_nat L =? Z.of_nat d + Z.of_nat L) eqn:E; [lia|reflexivity]. }
      rewrite Hdrop. cbn [bind].
      destruct (IH (d :: dn) (mkFrame (blocks (npairs (d :: dn))) (ids n)) replaced Hnd') as (n2 & dn2 & H1 & H2 & H3 & H4).
      * intros x Hx. apply Hlt. right. exact Hx.
      * intros x Hx. rewrite memn_cons. apply orb_false_iff. split; [apply Nat.eqb_neq; intros ->; contradiction|apply Hdn; right; exact Hx].
      * reflexivity.
      * cbn [ids]. intros l Hl. apply Hids. apply in_map_iff in Hl. destruct Hl as ([l' e] & <- & Hp). apply in_map_iff. exists (l', e). split; [reflexivity|].
        apply npairs_In in Hp. apply npairs_In. destruct Hp as (x & Hx & Hp). exists x. split; [exact Hx|]. rewrite memn_cons in Hp.
        destruct Hp as [(Hm & Hb & Hl)|(Hm & Hl)].
        -- left. destruct (x =? d)%nat eqn:Exd; [assert (x = d) by lia; subst x; congruence|]. auto.
        -- right. apply orb_false_iff in Hm. tauto.
      * exists n2, dn2. split; [exact H1|]. split; [|split; assumption].
        intro x. rewrite H2, !memn_cons. destruct (x =? d)%nat, (memn x dn), (memn x todo); reflexivity.
Qed.

(** ** the whole step *)
Hypothesis Hinj : forall d d', In d nearest -> In d' nearest -> nth_error index d = nth_error index d' -> d = d'.

Definition repl (k : Z) (j : eddy) : eddy :=
  match find (fun d => memn d nearest && bet d && (kk d =? k)) (seq 0 (length N)) with
  | Some d => match nth_error N d with Some n => n | None => j end
  | None => j
  end.
Definition fresh : pairs :=
  flat_map (fun d => match nth_error N d with Some n => if memn d nearest then [] else [(Z.of_nat d + Z.of_nat L, n)] | None => [] end) (seq 0 (length N)).
Definition qs : pairs := map (fun p => (fst p, repl (fst p) (snd p))) (enum J) ++ fresh.

Lemma fresh_In l e : In (l, e) fresh <-> exists d, nth_error N d = Some e /\ memn d nearest = false /\ l = Z.of_nat d + Z.of_nat L.
Proof.
  unfold fresh. rewrite in_flat_map. split.
  - intros (d & _ & H). destruct (nth_error N d) as [n|] eqn:E; [|destruct H]. destruct (memn d nearest) eqn:Em; [destruct H|].
    destruct H as [H|[]]. injection H as <- <-. eauto.
  - intros (d & Hd & Hm & ->). exists d. split; [apply in_seq; split; [lia|]; cbn; apply nth_error_Some; congruence|]. rewrite Hd, Hm. left. reflexivity.
Qed.
Lemma fresh_sorted : StronglySorted Z.lt (map fst fresh).
Proof.
  unfold fresh. assert (G : forall a m, StronglySorted Z.lt (map fst (flat_map (fun d => match nth_error N d with Some n => if memn d nearest then [] else [(Z.of_nat d + Z.of_nat L, n)] | None => [] end) (seq a m)))
     /\ forall x, In x (map fst (flat_map (fun d => match nth_error N d with Some n => if memn d nearest then [] else [(Z.of_nat d + Z.of_nat L, n)] | None => [] end) (seq a m))) -> Z.of_nat a + Z.of_nat L <= x); [|apply (G 0%nat)].
  intros a m. revert a. induction m as [|m IH]; intro a; [split; [constructor|intros x []]|].
  cbn [seq flat_map]. destruct (IH (S a)) as [H1 H2]. rewrite map_app.
  destruct (nth_error N a) as [n|]; [destruct (memn a nearest)|]; cbn [map app fst].
  - split; [exact H1|]. intros x Hx. apply H2 in Hx. lia.
  - split.
    + constructor; [exact H1|]. apply Forall_forall. intros x Hx. apply H2 in Hx. lia.
    + intros x [<-|Hx]; [lia|]. apply H2 in Hx. lia.
  - split; [exact H1|]. intros x Hx. apply H2 in Hx. lia.
Qed.
Lemma qs_sorted : StronglySorted Z.lt (map fst qs).
Proof.
  unfold qs. rewrite map_app. rewrite map_map. cbn [fst]. rewrite enum_fst. apply SS_app; [apply zseq_sorted|apply fresh_sorted|].
  intros a b Ha Hb. apply zseq_In in Ha. apply in_map_iff in Hb. destruct Hb as ([l e] & <- & Hb). apply fresh_In in Hb.
  destruct Hb as (d & _ & _ & ->). cbn. lia.
Qed.

Lemma repl_find k d : In d nearest -> bet d = true -> kk d = k -> find (fun d => memn d nearest && bet d && (kk d =? k)) (seq 0 (length N)) = Some d.
Proof.
  intros Hn Hb Hk. assert (Hd : (d < length N)%nat) by (apply Hspec; exact Hn).
  destruct (find (fun d => memn d nearest && bet d && (kk d =? k)) (seq 0 (length N))) as [d'|] eqn:E.
  - apply find_some in E. destruct E as [Hs E]. apply andb_true_iff in E. destruct E as [E Ek]. apply andb_true_iff in E. destruct E as [Em Eb].
    f_equal. apply Hinj; [apply memn_In; exact Em|exact Hn|].
    apply in_seq in Hs. unfold kk in *.
    destruct (nth_error index d') as [k1|] eqn:E1; [|apply nth_error_None in E1; rewrite (proj1 Hspec) in E1; lia].
    destruct (nth_error index d) as [k2|] eqn:E2; [|apply nth_error_None in E2; rewrite (proj1 Hspec) in E2; lia].
    f_equal. lia.
  - exfalso. assert (F := find_none _ _ E d). cbn beta in F. rewrite (proj2 (memn_In _ _) Hn), Hb, Hk, Z.eqb_refl in F. cbn in F.
    assert (true = false); [apply F; apply in_seq; lia|discriminate].
Qed.

Lemma perm_pairs dn2 : (forall d, memn d dn2 = memn d nearest) ->
  Permutation (filter (fun p => negb (mem (fst p) (map kk (filter bet nearest)))) (enum J) ++ npairs dn2) qs.
Proof.
  intro Hdn.
  assert (Hmem : forall k, mem k (map kk (filter bet nearest)) = true <-> exists d, In d nearest /\ bet d = true /\ kk d = k).
  { intro k. unfold mem. rewrite existsb_exists. split.
    - intros (x & Hx & E). apply in_map_iff in Hx. destruct Hx as (d & <- & Hd). apply filter_In in Hd. exists d. split; [tauto|]. split; [tauto|]. lia.
    - intros (d & A & B & <-). exists (kk d). split; [|apply Z.eqb_refl]. apply in_map. apply filter_In. auto. }
  apply NoDup_Permutation.
  - apply NoDup_app_intro.
    + apply NoDup_filter. apply (NoDup_map_inv fst). rewrite enum_fst. apply NoDup_sorted_lt, zseq_sorted.
    + unfold npairs. assert (G : forall l, NoDup l -> (forall x, In x l -> (x < length N)%nat) -> NoDup (flat_map (st dn2) l)).
      { induction l as [|a l IH]; intros Hnd Hlt; [constructor|]. cbn. inversion Hnd as [|? ? Hni Hnd']; subst. apply NoDup_app_intro.
        - unfold st. destruct (nth_error N a); [|constructor]. destruct (memn a dn2); [destruct (bet a)|]; repeat constructor; intros [].
        - apply IH; [assumption|intros; apply Hlt; right; assumption].
        - intros [l0 e] H1 H2. apply in_flat_map in H2. destruct H2 as (x & Hx & H2).
          assert (Hxa : x <> a) by (intros ->; contradiction).
          assert (Hla := Hlt a (or_introl eq_refl)). assert (Hlx := Hlt x (or_intror Hx)).
          assert (Ka := kk_lt a Hla). assert (Kx := kk_lt x Hlx).
          unfold st in H1, H2. destruct (nth_error N a) as [na|]; [|destruct H1]. destruct (nth_error N x) as [nx|]; [|destruct H2].
          destruct (memn a dn2) eqn:Ma; destruct (memn x dn2) eqn:Mx.
          + destruct (bet a); [|destruct H1]. destruct (bet x); [|destruct H2]. destruct H1 as [H1|[]], H2 as [H2|[]].
            injection H1 as <- <-. injection H2 as H2 _. apply Hxa. apply Hinj; [apply memn_In; rewrite <- Hdn; exact Mx|apply memn_In; rewrite <- Hdn; exact Ma|].
            unfold kk in H2. destruct (nth_error index x) as [k1|] eqn:E1; [|apply nth_error_None in E1; rewrite (proj1 Hspec) in E1; lia].
            destruct (nth_error index a) as [k2|] eqn:E2; [|apply nth_error_None in E2; rewrite (proj1 Hspec) in E2; lia]. f_equal. lia.
          + destruct (bet a); [|destruct H1]. destruct H1 as [H1|[]], H2 as [H2|[]]. injection H1 as <- <-. injection H2 as H2 _. lia.
          + destruct (bet x); [|destruct H2]. destruct H1 as [H1|[]], H2 as [H2|[]]. injection H1 as <- <-. injection H2 as H2 _. lia.
          + destruct H1 as [H1|[]], H2 as [H2|[]]. injection H1 as <- <-. injection H2 as H2 _. lia. }
      apply G; [apply seq_NoDup|]. intros x Hx. apply in_seq in Hx. lia.
    + intros [l e] H1 H2. apply filter_In in H1. destruct H1 as [H1 Hneg]. cbn in Hneg.
      apply enum_In in H1. destruct H1 as (i & -> & Hi). apply npairs_In in H2. destruct H2 as (d & Hd & [(Hm & Hb & Hl)|(Hm & Hl)]).
      * rewrite Hdn in Hm. rewrite (proj2 (Hmem (Z.of_nat i))) in Hneg; [discriminate|]. exists d. split; [apply memn_In; exact Hm|]. auto.
      * assert (i < length J)%nat by (apply nth_error_Some; congruence). lia.
  - apply (NoDup_map_inv fst). apply NoDup_sorted_lt, qs_sorted.
  - intros [l e]. unfold qs. rewrite !in_app_iff, filter_In, fresh_In, npairs_In, in_map_iff. cbn [fst]. split.
    + intros [[H1 Hneg]|(d & Hd & [(Hm & Hb & ->)|(Hm & ->)])].
      * left. exists (l, e). split; [|exact H1]. cbn. f_equal. unfold repl.
        destruct (find _ _) as [d|] eqn:E; [|reflexivity]. apply find_some in E. destruct E as [_ E]. apply andb_true_iff in E. destruct E as [E Ek].
        apply andb_true_iff in E. destruct E as [Em Eb]. rewrite (proj2 (Hmem l)) in Hneg; [discriminate|]. exists d. split; [apply memn_In; exact Em|]. split; [exact Eb|lia].
      * left. rewrite Hdn in Hm. apply memn_In in Hm. assert (Hdl : (d < length N)%nat) by (apply nth_error_Some; congruence).
        assert (Hk := kk_lt d Hdl). destruct (nth_error J (Z.to_nat (kk d))) as [j|] eqn:Ej; [|apply nth_error_None in Ej; lia].
        exists (kk d, j). split.
        -- cbn. f_equal. unfold repl. rewrite (repl_find (kk d) d Hm Hb eq_refl), Hd. reflexivity.
        -- apply enum_In. exists (Z.to_nat (kk d)). split; [lia|exact Ej].
      * right. exists d. rewrite <- Hdn. auto.
    + intros [([k j] & Hp & Hkj)|(d & Hd & Hm & ->)].
      * cbn in Hp. injection Hp as -> He. unfold repl in He.
        destruct (find _ _) as [d|] eqn:E.
        -- right. apply find_some in E. destruct E as [Hs E]. apply andb_true_iff in E. destruct E as [E Ek].
           apply andb_true_iff in E. destruct E as [Em Eb]. destruct (nth_error N d) as [n|] eqn:End.
           ++ subst e. exists d. split; [exact End|]. left. rewrite Hdn. repeat split; try assumption. lia.
           ++ apply nth_error_None in End. apply in_seq in Hs. lia.
        -- left. subst e. split; [exact Hkj|]. apply negb_true_iff. apply not_true_is_false. intro Hm. apply Hmem in Hm.
           destruct Hm as (d & A & B & C). rewrite (repl_find l d A B C) in E. discriminate.
      * right. exists d. rewrite Hdn. auto.
Qed.

Lemma step_pairs : exists n2 p2 L', update_better_eddy f c index nearest = Ok (p2, n2) /\
  merge_reindex keep p2 n2 = Ok (mkFrame (table (map snd qs)) (zseq L')) /\ (length (map snd qs) <= L')%nat.
Proof.
  unfold update_better_eddy.
  assert (Hcu : used (rows c) = zseq (length N)).
  { unfold c, level_table. cbn [rows]. rewrite table_enum, blocks_used by (apply enum_nonempty, ok_ne, HN). rewrite enum_fst. apply sort_uniq_fix, zseq_sorted. }
  assert (Hlj : (0 < length J)%nat) by (destruct J; [congruence|cbn; lia]).
  rewrite (update_counter_Ok f c L (length N)); [|lia|reflexivity|reflexivity|exact Hcu]. cbn [bind].
  set (n1 := set_index (map (fun r => with_id r (r_id r + Z.of_nat L)) (rows c))).
  assert (Hn1 : rows n1 = blocks (npairs [])).
  { unfold n1, c, level_table. cbn [rows set_index]. rewrite table_enum, (blocks_map (fun x => x + Z.of_nat L)). f_equal.
    unfold npairs, enum. clear. rewrite map_map. cbn [fst snd].
    assert (G : forall s M, (forall i, nth_error M i = nth_error N (s + i)) ->
      map (fun x => (Z.of_nat (fst x) + Z.of_nat L, snd x)) (combine (seq s (length M)) M) = flat_map (st []) (seq s (length M))).
    { intros s M. revert s. induction M as [|m M IH]; intros s H; [reflexivity|]. cbn. assert (E := H 0%nat). rewrite Nat.add_0_r in E. cbn in E.
      unfold st at 1. rewrite <- E. cbn. f_equal. apply IH. intro i. specialize (H (S i)). cbn in H. rewrite H. f_equal. lia. }
    apply (G 0%nat). reflexivity. }
  destruct (better_loop_Ok nearest [] n1 []) as (n2 & dn2 & H1 & H2 & H3 & H4).
  - apply Hspec.
  - apply Hspec.
  - reflexivity.
  - exact Hn1.
  - intros l Hl. change (ids n1) with (used (rows n1)). rewrite Hn1, blocks_used by apply npairs_ne. apply sort_uniq_In. exact Hl.
  - rewrite H1. cbn [bind app].
    assert (Hdn : forall d, memn d dn2 = memn d nearest) by (intro d; rewrite H2; reflexivity).
    set (ps := filter (fun p => negb (mem (fst p) (map kk (filter bet nearest)))) (enum J)).
    assert (Hp2 : exists p2, match map kk (filter bet nearest) with [] => Ok (f, n2) | _ :: _ => do p' <- drop_ids (map kk (filter bet nearest)) f; Ok (p', n2) end = Ok (p2, n2)
       /\ rows p2 = blocks ps /\ ids p2 = zseq L).
    { destruct (map kk (filter bet nearest)) as [|z l] eqn:Er.
      - exists f. split; [reflexivity|]. split; [|reflexivity]. unfold ps. cbn [rows f]. rewrite table_enum. f_equal. symmetry. apply filter_true. reflexivity.
      - assert (Hz : In z (map kk (filter bet nearest))) by (rewrite Er; left; reflexivity). rewrite <- Er in *.
        apply in_map_iff in Hz. destruct Hz as (d & Hkd & Hd). apply filter_In in Hd. destruct Hd as [Hd Hb].
        assert (Hk := kk_lt d (proj1 (proj2 (proj2 Hspec)) d Hd)).
        destruct (nth_error J (Z.to_nat (kk d))) as [j|] eqn:Ej; [|apply nth_error_None in Ej; lia].
        unfold drop_ids, f. cbn [rows ids]. rewrite table_enum.
        rewrite (blocks_exists (fun x => mem x (map kk (filter bet nearest)))) by (apply enum_nonempty, ok_ne, HJ).
        assert (existsb (fun p => mem (fst p) (map kk (filter bet nearest))) (enum J) = true) as ->.
        { apply existsb_exists. exists (kk d, j). split; [apply enum_In; exists (Z.to_nat (kk d)); split; [lia|exact Ej]|].
          unfold mem. apply existsb_exists. exists (kk d). split; [|apply Z.eqb_refl]. apply in_map, filter_In. auto. }
        eexists. split; [reflexivity|]. split; [|reflexivity]. cbn [rows]. unfold ps. rewrite <- Er. apply (blocks_filter (fun x => negb (mem x (map kk (filter bet nearest))))). }
    destruct Hp2 as (p2 & Hp2 & Hrp & Hip).
    destruct (merge_pairs keep p2 n2 ps (npairs dn2) qs Hrp H3) as (L' & Hm & HL').
    + intros p Hp. apply filter_In in Hp. apply (enum_nonempty J (ok_ne J HJ)). apply Hp.
    + apply npairs_ne.
    + intros l Hl. rewrite Hip. apply in_map_iff in Hl. destruct Hl as ([l' e] & <- & Hp). apply filter_In in Hp. destruct Hp as [Hp _].
      apply enum_In in Hp. destruct Hp as (i & -> & Hi). apply zseq_In. assert (i < length J)%nat by (apply nth_error_Some; congruence). cbn. lia.
    + exact H4.
    + apply qs_sorted.
    + apply perm_pairs. exact Hdn.
    + exists n2, p2, L'. split; [exact Hp2|]. split; [exact Hm|rewrite map_length; exact HL'].
Qed.

Definition link (d : nat) : option nat := if memn d nearest then nth_error index d else None.

Lemma fresh_snd : map snd fresh = map snd (filter (fun dn => match link (fst dn) with None => true | Some _ => false end) (combine (seq 0 (length N)) N)).
Proof.
  unfold fresh.
  assert (G : forall s M, (s + length M = length N)%nat -> (forall i, nth_error M i = nth_error N (s + i)) ->
     map snd (flat_map (fun d => match nth_error N d with Some n => if memn d nearest then [] else [(Z.of_nat d + Z.of_nat L, n)] | None => [] end) (seq s (length M))) =
     map snd (filter (fun dn => match link (fst dn) with None => true | Some _ => false end) (combine (seq s (length M)) M))).
  { intros s M. revert s. induction M as [|m M IH]; intros s Hs H; [reflexivity|]. cbn [length seq flat_map combine filter fst]. rewrite map_app.
    assert (E := H 0%nat). rewrite Nat.add_0_r in E. cbn in E. rewrite <- E.
    assert (IH' : forall i, nth_error M i = nth_error N (S s + i)) by (intro i; specialize (H (S i)); cbn in H; rewrite H; f_equal; lia).
    cbn [length] in Hs. unfold link at 1. destruct (memn s nearest) eqn:Em.
    - destruct (nth_error index s) as [k|] eqn:Ek.
      + cbn [map app]. apply IH; [lia|exact IH'].
      + exfalso. apply nth_error_None in Ek. rewrite (proj1 Hspec) in Ek. lia.
    - cbn [map app snd]. f_equal. apply IH; [lia|exact IH']. }
  apply G; [reflexivity|reflexivity].
Qed.

Lemma qs_merged : merged hav J N (map snd qs).
Proof.
  exists link, (map (fun p => repl (fst p) (snd p)) (enum J)).
  assert (Hlink : forall d k, link d = Some k -> In d nearest /\ nth_error index d = Some k).
  { intros d k. unfold link. destruct (memn d nearest) eqn:E; [|discriminate]. apply memn_In in E. auto. }
  split; [|split; [|split; [|split]]].
  - intros d n k Hd Hl. apply Hlink in Hl. destruct Hl as [Hin Hk].
    destruct (proj2 (proj2 (proj2 Hspec)) d n Hd) as (k' & j & Hk' & Hj & Hcl & Hnear). rewrite Hk in Hk'. injection Hk' as <-.
    exists j. split; [exact Hj|]. split; [apply Hnear; exact Hin|exact Hcl].
  - intros d n Hd Hl j' Hj' Hn'. unfold link in Hl.
    destruct (proj2 (proj2 (proj2 Hspec)) d n Hd) as (k & j & Hk & Hj & Hcl & Hnear). destruct (memn d nearest) eqn:E; [congruence|].
    assert (Hni : ~ near hav n j) by (intro H; apply Hnear, memn_In in H; congruence).
    apply Hni. destruct Hn' as (pn & pj' & rad & A & B & C & D).
    assert (Hoj : eddy_ok j) by (rewrite Forall_forall in HJ; apply HJ; eapply nth_error_In; eauto).
    exists pn, (pos_e j), rad. split; [exact A|]. split; [apply eddy_ok_pos; exact Hoj|]. split; [exact C|].
    specialize (Hcl pn (pos_e j) j' pj' A (eddy_ok_pos j Hoj) Hj' B). lra.
  - rewrite map_length. unfold enum. rewrite map_length, combine_length, seq_length. lia.
  - intros k j j' Hk Hk'. rewrite nth_error_map in Hk'.
    assert (He : nth_error (enum J) k = Some (Z.of_nat k, j)).
    { unfold enum. rewrite nth_error_map. assert (G : forall s (E : list eddy) i e, nth_error E i = Some e -> nth_error (combine (seq s (length E)) E) i = Some ((s + i)%nat, e)).
      { intros s E. revert s. induction E as [|x E IH]; intros s i e H; [destruct i; discriminate|]. destruct i as [|i]; cbn in *; [injection H as ->; rewrite Nat.add_0_r; reflexivity|].
        rewrite (IH (S s) i e H). do 2 f_equal. lia. }
      rewrite (G 0%nat J k j Hk). reflexivity. }
    rewrite He in Hk'. cbn in Hk'. injection Hk' as Hk'. unfold repl in Hk'.
    destruct (find _ _) as [d|] eqn:E.
    + left. apply find_some in E. destruct E as [Hs E]. apply andb_true_iff in E. destruct E as [E Ek]. apply andb_true_iff in E. destruct E as [Em Eb].
      apply in_seq in Hs. destruct (nth_error N d) as [n|] eqn:End; [|apply nth_error_None in End; lia]. subst j'.
      exists d. split; [exact End|]. unfold bet in Eb. rewrite End in Eb. unfold kk in Ek. unfold link. rewrite Em.
      destruct (nth_error index d) as [k'|] eqn:Eix; [|discriminate]. assert (k' = k) by lia. subst k'. split; [reflexivity|].
      rewrite Hk in Eb. apply exceedsb_iff. exact Eb.
    + right. split; [auto|]. intros d n Hd Hl Hex. apply Hlink in Hl. destruct Hl as [Hin Hix].
      assert (Hb : bet d = true) by (unfold bet; rewrite Hd, Hix, Hk; apply exceedsb_iff; exact Hex).
      rewrite (repl_find (Z.of_nat k) d Hin Hb) in E; [discriminate|]. unfold kk. rewrite Hix. reflexivity.
  - unfold qs. rewrite map_app, map_map, fresh_snd. cbn [snd]. reflexivity.
Qed.
End Loop.
End Step.

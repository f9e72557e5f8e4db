(** Lemmas about file names. *)
From Coq Require Import Ascii ZifyBool ZifyNat Lia.
From Verif Require Import M_Base M_Store.
Open Scope string_scope.
Open Scope Z_scope.
Local Infix "++" := append (right associativity, at level 60).

Lemma app_nil_s (a : string) : a ++ "" = a.
Proof. induction a as [|c a IH]; cbn; [reflexivity|f_equal; exact IH]. Qed.
Lemma app_assoc_s (a b c : string) : (a ++ b) ++ c = a ++ b ++ c.
Proof. induction a as [|x a IH]; cbn; [reflexivity|f_equal; exact IH]. Qed.
Lemma app_len (a b : string) : String.length (a ++ b) = (String.length a + String.length b)%nat.
Proof. induction a as [|x a IH]; cbn; [reflexivity|f_equal; exact IH]. Qed.
Lemma app_inj_l (a b c : string) : a ++ b = a ++ c -> b = c.
Proof. induction a as [|x a IH]; cbn; intro H; [exact H|]. injection H as H. auto. Qed.
Lemma app_inj_len (a b c d : string) : String.length a = String.length b -> a ++ c = b ++ d -> a = b /\ c = d.
Proof.
  revert b. induction a as [|x a IH]; intros [|y b] Hl H; cbn in *; try discriminate; [auto|].
  injection H as -> H. injection Hl as Hl. destruct (IH b Hl H) as [-> ->]. auto.
Qed.
Lemma app_inj_r (a b c : string) : a ++ c = b ++ c -> a = b.
Proof.
  intro H. apply (app_inj_len a b c c); [|exact H]. assert (E := f_equal String.length H). rewrite !app_len in E. lia.
Qed.

Lemma digit_N d : 0 <= d < 10 -> N_of_ascii (digit d) = Z.to_N (48 + d).
Proof. intro H. unfold digit. apply N_ascii_embedding. lia. Qed.
Lemma digit_inj d e : 0 <= d < 10 -> 0 <= e < 10 -> digit d = digit e -> d = e.
Proof. intros Hd He H. assert (E := f_equal N_of_ascii H). rewrite !digit_N in E by assumption. lia. Qed.

Lemma digits_len k n : String.length (digits k n) = k.
Proof. revert n. induction k as [|k IH]; intro n; [reflexivity|]. cbn [digits]. rewrite app_len, IH. cbn. lia. Qed.
Lemma digits_inj k : forall m n, 0 <= m < 10 ^ Z.of_nat k -> 0 <= n < 10 ^ Z.of_nat k -> digits k m = digits k n -> m = n.
Proof.
  induction k as [|k IH]; intros m n Hm Hn H; [cbn in Hm, Hn; lia|].
  rewrite Nat2Z.inj_succ, Z.pow_succ_r in Hm, Hn by lia. cbn [digits] in H.
  destruct (app_inj_len _ _ _ _ ltac:(rewrite !digits_len; reflexivity) H) as [H1 H2]. injection H2 as H2.
  apply digit_inj in H2; [|apply Z.mod_pos_bound; lia|apply Z.mod_pos_bound; lia].
  apply IH in H1; [|split; [apply Z.div_pos; lia|apply Z.div_lt_upper_bound; lia]..].
  rewrite (Z.div_mod m 10), (Z.div_mod n 10) by lia. congruence.
Qed.

Lemma width_ok n : 0 <= n -> n < 10 ^ Z.of_nat (width n).
Proof.
  intro H. unfold width.
  assert (Hb : forall fuel m, 0 <= m -> m < 2 ^ Z.of_nat fuel -> m < 10 ^ Z.of_nat (width_aux fuel m)).
  { induction fuel as [|f IH]; intros m Hm Hb; cbn [width_aux]; [cbn in *; lia|].
    destruct (m <? 10) eqn:E; [change (10 ^ Z.of_nat 1) with 10; lia|].
    rewrite Nat2Z.inj_succ, Z.pow_succ_r by lia. rewrite Nat2Z.inj_succ, Z.pow_succ_r in Hb by lia.
    assert (Hd : m / 10 < 10 ^ Z.of_nat (width_aux f (m / 10))).
    { assert (0 < 2 ^ Z.of_nat f) by (apply Z.pow_pos_nonneg; lia). apply IH; [apply Z.div_pos; lia|]. apply Z.div_lt_upper_bound; lia. }
    assert (Hm2 := Z.mod_pos_bound m 10 ltac:(lia)). assert (Hm3 := Z.div_mod m 10 ltac:(lia)). lia. }
  apply Hb; [exact H|]. rewrite Nat2Z.inj_succ, Z2Nat.id by apply Z.log2_nonneg.
  destruct (Z.eq_dec n 0) as [->|Hn]; [reflexivity|]. apply Z.log2_spec. lia.
Qed.
Lemma pow_le j k : (j <= k)%nat -> 10 ^ Z.of_nat j <= 10 ^ Z.of_nat k.
Proof. intro H. apply Z.pow_le_mono_r; lia. Qed.

Lemma digits_head k n : digits (S k) n = String (digit (n / 10 ^ Z.of_nat k mod 10)) (digits k n).
Proof.
  revert n. induction k as [|k IH]; intro n.
  - cbn [digits]. change (10 ^ Z.of_nat 0) with 1. rewrite Z.div_1_r. reflexivity.
  - change (digits (S (S k)) n) with (digits (S k) (n / 10) ++ String (digit (n mod 10)) ""). rewrite IH. cbn [append digits]. f_equal. f_equal.
    rewrite Z.div_div by lia. rewrite Nat2Z.inj_succ, Z.pow_succ_r by lia. reflexivity.
Qed.

Lemma format05_len n : 0 <= n < 100000 -> format05 n = digits 5 n.
Proof.
  intro H. unfold format05. destruct (n <? 0) eqn:E; [lia|]. f_equal. apply Nat.max_l.
  unfold width. generalize (S (Z.to_nat (Z.log2 n))) as f. intro f.
  assert (Hw : forall k f m, 0 <= m < 10 ^ (Z.of_nat k + 1) -> (width_aux f m <= S k)%nat).
  { induction k as [|k IH]; intros f0 m Hm; destruct f0 as [|f0]; cbn [width_aux]; try lia.
    - destruct (m <? 10) eqn:Em; [lia|]. change (10 ^ (Z.of_nat 0 + 1)) with 10 in Hm. lia.
    - destruct (m <? 10) eqn:Em; [lia|]. apply le_n_S. apply IH.
      rewrite Nat2Z.inj_succ in Hm. replace (Z.succ (Z.of_nat k) + 1) with (Z.succ (Z.of_nat k + 1)) in Hm by lia.
      rewrite Z.pow_succ_r in Hm by lia. split; [apply Z.div_pos; lia|apply Z.div_lt_upper_bound; lia]. }
  apply (Hw 4%nat). exact H.
Qed.

Lemma format05_inj m n : format05 m = format05 n -> m = n.
Proof.
  assert (Hpos : forall m n, 0 <= m -> 0 <= n -> forall j, digits (Nat.max j (width m)) m = digits (Nat.max j (width n)) n -> m = n).
  { intros m0 n0 Hm Hn j H. assert (E := f_equal String.length H). rewrite !digits_len in E. rewrite E in H. apply digits_inj in H; [exact H| |].
    - split; [exact Hm|]. rewrite <- E. eapply Z.lt_le_trans; [apply width_ok; exact Hm|apply pow_le; lia].
    - split; [exact Hn|]. eapply Z.lt_le_trans; [apply width_ok; exact Hn|apply pow_le; lia]. }
  assert (Hne : forall k d s, digits (S k) d <> String "-" s).
  { intros k d s H. rewrite digits_head in H. injection H as E _. assert (E2 := f_equal N_of_ascii E).
    rewrite digit_N in E2 by (apply Z.mod_pos_bound; lia). change (N_of_ascii "-") with 45%N in E2. assert (Hb := Z.mod_pos_bound (d / 10 ^ Z.of_nat k) 10 ltac:(lia)). lia. }
  unfold format05. destruct (m <? 0) eqn:Em, (n <? 0) eqn:En; intro H.
  - apply app_inj_l in H. apply Hpos in H; lia.
  - exfalso. destruct (Nat.max 5 (width n)) eqn:E; [lia|]. symmetry in H. apply Hne in H. exact H.
  - exfalso. destruct (Nat.max 5 (width m)) eqn:E; [lia|]. apply Hne in H. exact H.
  - apply Hpos in H; lia.
Qed.

Lemma name_inj t t' fmt : snapshot_name t fmt = snapshot_name t' fmt -> t = t'.
Proof. unfold snapshot_name. intro H. apply app_inj_l in H. apply app_inj_r in H. apply format05_inj. exact H. Qed.
Lemma path_inj path t t' fmt : snapshot_path path t fmt = snapshot_path path t' fmt -> t = t'.
Proof.
  unfold snapshot_path, path_join. destruct path as [|c p]; [apply name_inj|].
  destruct (ends_with_slash (String c p)); intro H; apply app_inj_l in H; [|apply app_inj_l with (a := "/") in H]; eapply name_inj; exact H.
Qed.

(** order *)
Lemma compare_app_l (a b c : string) : String.compare (a ++ b) (a ++ c) = String.compare b c.
Proof.
  induction a as [|x a IH]; [reflexivity|]. cbn [append String.compare].
  assert (Ascii.compare x x = Eq) as -> by (unfold Ascii.compare; apply N.compare_refl). exact IH.
Qed.
Lemma digit_compare d e : 0 <= d < 10 -> 0 <= e < 10 -> Ascii.compare (digit d) (digit e) = (d ?= e).
Proof.
  intros Hd He. unfold Ascii.compare. rewrite !digit_N by assumption.
  rewrite <- N2Z.inj_compare, !Z2N.id by lia.
  destruct (Z.compare_spec d e); destruct (Z.compare_spec (48 + d) (48 + e)); try reflexivity; lia.
Qed.
Lemma digits_compare k : forall m n s, 0 <= m < 10 ^ Z.of_nat k -> 0 <= n < 10 ^ Z.of_nat k ->
  String.compare (digits k m ++ s) (digits k n ++ s) = (m ?= n).
Proof.
  induction k as [|k IH]; intros m n s Hm Hn.
  - cbn [digits append]. cbn in Hm, Hn. assert (m = n) as -> by lia. rewrite Z.compare_refl.
    induction s as [|x s IHs]; [reflexivity|]. cbn [String.compare]. unfold Ascii.compare. rewrite N.compare_refl. exact IHs.
  - rewrite !digits_head. cbn [append String.compare].
    rewrite Nat2Z.inj_succ, Z.pow_succ_r in Hm, Hn by lia.
    assert (Hp : 0 < 10 ^ Z.of_nat k) by (apply Z.pow_pos_nonneg; lia).
    assert (Hdm : 0 <= m / 10 ^ Z.of_nat k < 10) by (split; [apply Z.div_pos; lia|apply Z.div_lt_upper_bound; lia]).
    assert (Hdn : 0 <= n / 10 ^ Z.of_nat k < 10) by (split; [apply Z.div_pos; lia|apply Z.div_lt_upper_bound; lia]).
    rewrite !Z.mod_small by assumption. rewrite digit_compare by assumption.
    assert (Em := Z.div_mod m (10 ^ Z.of_nat k) ltac:(lia)). assert (En := Z.div_mod n (10 ^ Z.of_nat k) ltac:(lia)).
    assert (Bm := Z.mod_pos_bound m (10 ^ Z.of_nat k) Hp). assert (Bn := Z.mod_pos_bound n (10 ^ Z.of_nat k) Hp).
    set (P := 10 ^ Z.of_nat k) in *. set (a := m / P) in *. set (b := n / P) in *.
    assert (Hlow : forall x, digits k x = digits k (x mod P)).
    { intro x. clear - Hp. subst P. revert x. induction k as [|j IHj]; intro x; [reflexivity|].
      cbn [digits]. assert (Hpj : 0 < 10 ^ Z.of_nat j) by (apply Z.pow_pos_nonneg; lia).
      rewrite Nat2Z.inj_succ, Z.pow_succ_r by lia. rewrite (IHj Hpj (x / 10)), (IHj Hpj (x mod (10 * 10 ^ Z.of_nat j) / 10)).
      assert (E1 : x mod (10 * 10 ^ Z.of_nat j) = 10 * (x / 10 mod 10 ^ Z.of_nat j) + x mod 10).
      { rewrite Z.rem_mul_r by lia. lia. }
      rewrite E1. rewrite (Z.mul_comm 10), Z.div_add_l by lia. rewrite (Z.div_small (x mod 10)) by (apply Z.mod_pos_bound; lia).
      rewrite Z.add_0_r, Zmod_mod. f_equal. f_equal. f_equal. rewrite Z.add_comm, Z_mod_plus_full, Zmod_mod. reflexivity. }
    destruct (Z.compare_spec a b) as [Hab|Hab|Hab].
    + rewrite (Hlow m), (Hlow n). rewrite IH by assumption. rewrite Hab in Em.
      destruct (Z.compare_spec m n); destruct (Z.compare_spec (m mod P) (n mod P)); try reflexivity; lia.
    + symmetry. apply Z.compare_lt_iff. nia.
    + symmetry. apply Z.compare_gt_iff. nia.
Qed.
Lemma name_compare t t' fmt : 0 <= t < 100000 -> 0 <= t' < 100000 ->
  String.compare (snapshot_name t fmt) (snapshot_name t' fmt) = (t ?= t').
Proof.
  intros H H'. unfold snapshot_name. rewrite compare_app_l, !format05_len by assumption. apply digits_compare; assumption.
Qed.

(** storing *)
Lemma write_same {A} (fs : filesystem A) p a : write fs p a p = Some a.
Proof. unfold write. rewrite String.eqb_refl. reflexivity. Qed.
Lemma write_other {A} (fs : filesystem A) p q a : q <> p -> write fs p a q = fs q.
Proof. unfold write. intro H. destruct (String.eqb_spec q p); [contradiction|reflexivity]. Qed.

Lemma store_all_ok {A} path fmt : (fmt = "csv" \/ fmt = "json") -> forall snaps (fs : filesystem A), NoDup (map fst snaps) ->
  exists fs', store_all fs path fmt snaps = Ok fs' /\
    (forall t a, In (t, a) snaps -> fs' (snapshot_path path t fmt) = Some a) /\
    (forall q, (forall t, In t (map fst snaps) -> q <> snapshot_path path t fmt) -> fs' q = fs q).
Proof.
  intro Hf. induction snaps as [|[t a] rest IH]; intros fs Hnd.
  - exists fs. split; [reflexivity|]. split; [intros t a []|reflexivity].
  - inversion Hnd as [|? ? Hnin Hnd']; subst.
    assert (Hst : store_snapshot fs a path t fmt = Ok (write fs (snapshot_path path t fmt) a)).
    { unfold store_snapshot. destruct Hf as [-> | ->]; reflexivity. }
    destruct (IH (write fs (snapshot_path path t fmt) a) Hnd') as (fs' & H1 & H2 & H3).
    exists fs'. split; [cbn [store_all]; rewrite Hst; exact H1|]. split.
    + intros t' a' [E|Hin]; [|apply H2; exact Hin]. injection E as <- <-. rewrite H3; [apply write_same|].
      intros t2 Ht2 E. apply path_inj in E. subst t2. contradiction.
    + intros q Hq. rewrite H3 by (intros t2 Ht2; apply Hq; right; exact Ht2). apply write_other. apply Hq. left. reflexivity.
Qed.

Lemma NoDup_app_l {A} (l1 l2 : list A) : NoDup (l1 ++ l2) -> NoDup l1.
Proof.
  induction l1 as [|x l1 IH]; cbn; intro H; [constructor|]. inversion H as [|? ? Hn Hd]; subst. constructor; [|apply IH; exact Hd].
  intro Hin. apply Hn. apply in_or_app. left. exact Hin.
Qed.

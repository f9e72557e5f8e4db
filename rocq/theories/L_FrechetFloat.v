(** The memoised recursion over floats: its values and the number of its calls. *)
From Coq Require Import Reals Lra Lia.
From Flocq Require Import Core.
From Verif Require Import M_Base M_Printer M_Frechet M_FrechetFloat S_Frechet L_Frechet L_Frechet2 L_Frechet3.
Open Scope R_scope.

(** *** the value without the memo *)
Section Ffr.
Variable d : nat -> nat -> fl.
Fixpoint ffr (i : nat) : nat -> fl :=
  fix fri (j : nat) : fl :=
    match i, j with
    | O, O => d 0 0
    | S i', O => pmax (ffr i' 0%nat) (d i 0)
    | O, S j' => pmax (fri j') (d 0 j)
    | S i', S j' => pmax (pmin (pmin (ffr i' j) (ffr i' j')) (fri j')) (d i j)
    end.
Lemma ffr_00 : ffr 0 0 = d 0 0. Proof. reflexivity. Qed.
Lemma ffr_S0 i : ffr (S i) 0 = pmax (ffr i 0) (d (S i) 0). Proof. reflexivity. Qed.
Lemma ffr_0S j : ffr 0 (S j) = pmax (ffr 0 j) (d 0 (S j)). Proof. reflexivity. Qed.
Lemma ffr_SS i j : ffr (S i) (S j) = pmax (pmin (pmin (ffr i (S j)) (ffr i j)) (ffr (S i) j)) (d (S i) (S j)). Proof. reflexivity. Qed.
(** A value larger than -1 *)
Definition big (v : fl) : Prop := flt (Fin (-1)) v = true.
Lemma pmax_big a b : big a -> big (pmax a b).
Proof.
  unfold big, pmax. destruct a as [|x|], b as [|y|]; cbn; intro H; try exact H; try discriminate H; try reflexivity. destruct (Rlt_dec x y); [|exact H].
  destruct (Rlt_dec (-1) x); [|discriminate]. destruct (Rlt_dec (-1) y); [reflexivity|lra].
Qed.
Lemma pmin_big a b : big a -> big b -> big (pmin a b).
Proof. unfold pmin. destruct (flt b a); auto. Qed.
Lemma ffr_big : big (d 0 0) -> forall i j, big (ffr i j).
Proof.
  intro H. induction i as [|i IHi]; induction j as [|j IHj]; rewrite ?ffr_00, ?ffr_0S, ?ffr_S0, ?ffr_SS; [exact H| | |]; apply pmax_big; auto using pmin_big.
Qed.
Lemma ffr_nan : d 0 0 = Nan -> forall i j, ffr i j = Nan.
Proof.
  intro H. induction i as [|i IHi]; induction j as [|j IHj]; rewrite ?ffr_00, ?ffr_0S, ?ffr_S0, ?ffr_SS, ?IHi, ?IHj; [exact H| | |]; reflexivity.
Qed.
(** Finite distances, or NaN away from the first points: NaN counts as 0. *)
Definition zeroed (i j : nat) : R := match d i j with Fin x => x | _ => 0 end.
Lemma pmax_fin x y : pmax (Fin x) (Fin y) = Fin (Rmax x y).
Proof. unfold pmax, flt, Rmax. destruct (Rlt_dec x y), (Rle_dec x y); try reflexivity; try lra; f_equal; lra. Qed.
Lemma pmin_fin x y : pmin (Fin x) (Fin y) = Fin (Rmin x y).
Proof. unfold pmin, flt, Rmin. destruct (Rlt_dec y x), (Rle_dec x y); try reflexivity; try lra; f_equal; lra. Qed.
Lemma ffr_fin n m : (exists x, d 0 0 = Fin x) -> (forall i j, (i <= n)%nat -> (j <= m)%nat -> d i j = Nan \/ exists x, d i j = Fin x /\ 0 <= x) ->
  forall i j, (i <= n)%nat -> (j <= m)%nat -> ffr i j = Fin (fr zeroed i j).
Proof.
  intros [x0 H0] H.
  assert (P : forall i j, (i <= n)%nat -> (j <= m)%nat -> 0 <= zeroed i j).
  { intros i j A B. unfold zeroed. destruct (H i j A B) as [->|[x [-> X]]]; lra. }
  assert (M : forall v i j, 0 <= v -> (i <= n)%nat -> (j <= m)%nat -> pmax (Fin v) (d i j) = Fin (Rmax v (zeroed i j))).
  { intros v i j V A B. unfold zeroed. destruct (H i j A B) as [->|[x [-> X]]]; [|apply pmax_fin]. unfold pmax. cbn. rewrite Rmax_left by exact V. reflexivity. }
  assert (G : forall i j, (i <= n)%nat -> (j <= m)%nat -> 0 <= fr zeroed i j) by (intros i j A B; eapply Rle_trans; [apply (P i j A B)|apply fr_ge]).
  induction i as [|i IHi]; induction j as [|j IHj]; intros A B; rewrite ?ffr_00, ?ffr_0S, ?ffr_S0, ?ffr_SS, ?fr_00, ?fr_0S, ?fr_S0, ?fr_SS.
  - unfold zeroed. rewrite H0. reflexivity.
  - rewrite IHj by lia. apply M; [apply G|lia|lia]; lia.
  - rewrite IHi by lia. apply M; [apply G|lia|lia]; lia.
  - rewrite !IHi, IHj, !pmin_fin by lia. apply M; [|lia|lia]. repeat apply Rmin_glb; apply G; lia.
Qed.
End Ffr.
Lemma ffr_ext d d' n m : (forall i j, (i <= n)%nat -> (j <= m)%nat -> d i j = d' i j) -> forall i j, (i <= n)%nat -> (j <= m)%nat -> ffr d i j = ffr d' i j.
Proof.
  intro H. induction i as [|i IHi]; induction j as [|j IHj]; intros Hi Hj; rewrite ?ffr_00, ?ffr_0S, ?ffr_S0, ?ffr_SS.
  - apply H; assumption.
  - rewrite IHj, (H 0%nat) by lia. reflexivity.
  - rewrite IHi, (H (S i)) by lia. reflexivity.
  - rewrite !IHi, IHj, (H (S i)) by lia. reflexivity.
Qed.
Lemma pmin3_swap a b c : big a -> big b -> big c -> pmin (pmin a b) c = pmin (pmin c b) a.
Proof.
  unfold big, pmin, flt. intros. destruct a as [|x|], b as [|y|], c as [|z|]; try discriminate; cbn;
  repeat (destruct (Rlt_dec _ _); cbn in *); try reflexivity; try discriminate; try lra; try (f_equal; lra).
Qed.
Lemma ffr_swap_big d : big (d 0 0)%nat -> forall i j, ffr (fun a b => d b a) i j = ffr d j i.
Proof.
  intro B. induction i as [|i IHi]; induction j as [|j IHj]; rewrite ?ffr_00, ?ffr_0S, ?ffr_S0, ?ffr_SS; rewrite ?IHi, ?IHj; try reflexivity.
  f_equal. apply pmin3_swap; apply ffr_big, B.
Qed.
Lemma ffr_swap d : (d 0 0 = Nan \/ big (d 0 0))%nat -> forall i j, ffr (fun a b => d b a) i j = ffr d j i.
Proof. intros [N|B] i j; [rewrite !ffr_nan by exact N; reflexivity|apply ffr_swap_big, B]. Qed.

(** *** the table *)
(** The calls made when rows k, ..., k+n-1 up to column j are filled. *)
Definition row_calls (a j : nat) : nat := match a with O => j | S _ => 1 + 3 * j end.
Fixpoint rows_calls (k n j : nat) : nat := match n with O => O | S n' => rows_calls k n' j + row_calls (k + n') j end.
(** The calls made when nothing can be remembered *)
Fixpoint tree (i : nat) : nat -> nat :=
  fix treei (j : nat) : nat :=
    match i, j with
    | O, O => 1
    | S i', O => S (tree i' 0)
    | O, S j' => S (treei j')
    | S i', S j' => S (tree i' j + tree i' j' + treei j')
    end%nat.
Lemma tree_S0 i : tree (S i) 0 = S (tree i 0). Proof. reflexivity. Qed.
Lemma tree_0S j : tree 0 (S j) = S (tree 0 j). Proof. reflexivity. Qed.
Lemma tree_SS i j : tree (S i) (S j) = S (tree i (S j) + tree i j + tree (S i) j). Proof. reflexivity. Qed.
Lemma tree_mono_j i : forall j, (tree i j <= tree i (S j))%nat.
Proof. intro j. destruct i; [rewrite tree_0S; lia|]. rewrite tree_SS. lia. Qed.
Lemma tree_mono_i j i : (tree i j <= tree (S i) j)%nat.
Proof. destruct j; [rewrite tree_S0; lia|]. rewrite tree_SS. lia. Qed.
Lemma tree_le : forall j' i j, (j <= j')%nat -> (tree i j <= tree i j')%nat.
Proof. induction j' as [|j' IH]; intros i j H; [replace j with O by lia; lia|]. destruct (Nat.eq_dec j (S j')) as [->|N]; [lia|]. pose proof (IH i j ltac:(lia)). pose proof (tree_mono_j i j'). lia. Qed.
Lemma tree_le_i : forall i' i j, (i <= i')%nat -> (tree i j <= tree i' j)%nat.
Proof. induction i' as [|i' IH]; intros i j H; [replace i with O by lia; lia|]. destruct (Nat.eq_dec i (S i')) as [->|N]; [lia|]. pose proof (IH i j ltac:(lia)). pose proof (tree_mono_i j i'). lia. Qed.
Lemma tree_diag : forall n, (3 ^ n <= tree n n)%nat.
Proof.
  induction n as [|n IH]; [cbn; lia|]. rewrite tree_SS. pose proof (tree_mono_j n n). pose proof (tree_mono_i n n). rewrite Nat.pow_succ_r'. lia.
Qed.
Lemma tree_ge n i j : (n <= i)%nat -> (n <= j)%nat -> (3 ^ n <= tree i j)%nat.
Proof. intros A B. pose proof (tree_diag n). pose proof (tree_le_i i n n A). pose proof (tree_le j i n B). lia. Qed.

Section Table.
Context {A : Type}.
Variable norm : A -> A -> fl.
Variables p q : list A.
Variable d : nat -> nat -> fl.
Hypothesis Hd : forall i j, (i < length p)%nat -> (j < length q)%nat -> fnorm_at norm p q i j = Ok (d i j).
Definition fmemo (ca : ftable) : Prop := forall i j, ca i j = Fin (-1) \/ ca i j = ffr d i j.
Lemma fset_ok ca i j : fmemo ca -> fmemo (fset ca i j (ffr d i j)).
Proof. intros H a b. unfold fset. destruct (Nat.eqb_spec a i), (Nat.eqb_spec b j); cbn [andb]; subst; auto. Qed.
Lemma not_big_m1 : ~ big (Fin (-1)).
Proof. unfold big, flt. destruct (Rlt_dec _ _); [lra|discriminate]. Qed.
Lemma fmemo_big ca i j : fmemo ca -> big (ca i j) -> ca i j = ffr d i j.
Proof. intros H B. destruct (H i j) as [E|E]; [rewrite E in B; elim (not_big_m1 B)|exact E]. Qed.
Lemma big_dec v : {big v} + {flt (Fin (-1)) v = false}.
Proof. unfold big. destruct (flt (Fin (-1)) v); auto. Qed.

(** Values, whatever the distances *)
Lemma fc_ok : forall frames i j ca, fmemo ca -> (i < length p)%nat -> (j < length q)%nat -> (i + j < frames)%nat ->
  exists ca' k, fc norm frames p q ca i j = Ok (ffr d i j, ca', k) /\ fmemo ca'.
Proof using Hd.
  induction frames as [|f IH]; intros i j ca Hca Hi Hj Hf; [lia|]. cbn [fc]. destruct (big_dec (ca i j)) as [Hm|Hm].
  - pose proof (fmemo_big ca i j Hca Hm) as E. unfold big in Hm. rewrite Hm, E. eauto.
  - rewrite Hm. destruct i as [|i], j as [|j].
    + rewrite Hd by assumption. cbn [bind]. eexists _, _. split; [reflexivity|]. apply (fset_ok ca 0 0), Hca.
    + destruct (IH 0%nat j ca Hca Hi ltac:(lia) ltac:(lia)) as [ca1 [k1 [E1 H1]]]. rewrite E1. cbn [bind fst snd]. rewrite Hd by assumption. cbn [bind].
      rewrite <- ffr_0S. eexists _, _. split; [reflexivity|]. apply fset_ok, H1.
    + destruct (IH i 0%nat ca Hca ltac:(lia) Hj ltac:(lia)) as [ca1 [k1 [E1 H1]]]. rewrite E1. cbn [bind fst snd]. rewrite Hd by assumption. cbn [bind].
      rewrite <- ffr_S0. eexists _, _. split; [reflexivity|]. apply fset_ok, H1.
    + destruct (IH i (S j) ca Hca ltac:(lia) ltac:(lia) ltac:(lia)) as [ca1 [k1 [E1 H1]]]. rewrite E1. cbn [bind fst snd].
      destruct (IH i j ca1 H1 ltac:(lia) ltac:(lia) ltac:(lia)) as [ca2 [k2 [E2 H2]]]. rewrite E2. cbn [bind fst snd].
      destruct (IH (S i) j ca2 H2 ltac:(lia) ltac:(lia) ltac:(lia)) as [ca3 [k3 [E3 H3]]]. rewrite E3. cbn [bind fst snd].
      rewrite Hd by assumption. cbn [bind]. rewrite <- ffr_SS. eexists _, _. split; [reflexivity|]. apply fset_ok, H3.
Qed.
Lemma fc_overflow : forall frames i j, (frames <= i + j)%nat -> fc norm frames p q (fun _ _ => Fin (-1)) i j = Err RecursionError.
Proof using.
  induction frames as [|f IH]; intros i j H; [reflexivity|]. cbn [fc]. destruct (flt (Fin (-1)) (Fin (-1))) eqn:E; [elim (not_big_m1 E)|].
  destruct i as [|i], j as [|j]; [lia| | |]; rewrite IH by lia; reflexivity.
Qed.

(** Calls, when the first distance is a number *)
Lemma fset_here ca i j v : fset ca i j v i j = v.
Proof. unfold fset. rewrite !Nat.eqb_refl. reflexivity. Qed.
Lemma fset_other ca i j v a b : (a <> i \/ b <> j)%nat -> fset ca i j v a b = ca a b.
Proof. intro H. unfold fset. destruct (Nat.eqb_spec a i), (Nat.eqb_spec b j); cbn [andb]; try reflexivity. lia. Qed.
Lemma lookup frames ca i j : (0 < frames)%nat -> fmemo ca -> big (ca i j) -> fc norm frames p q ca i j = Ok (ffr d i j, ca, 1%nat).
Proof using. intros F M B. destruct frames as [|f]; [lia|]. cbn [fc]. rewrite <- (fmemo_big ca i j M B). unfold big in B. rewrite B. reflexivity. Qed.
Lemma fc_calls : (forall i j, big (ffr d i j)) -> forall frames i j k ca, fmemo ca -> (i < length p)%nat -> (j < length q)%nat -> (i + j < frames)%nat ->
  (k <= i)%nat -> (forall a b, (b <= j)%nat -> (big (ca a b) <-> (a < k)%nat)) ->
  exists ca', fc norm frames p q ca i j = Ok (ffr d i j, ca', S (rows_calls k (S i - k) j)) /\ fmemo ca' /\
    (forall a b, (b <= j)%nat -> (big (ca' a b) <-> (a <= i)%nat)) /\ (forall a b, (j < b)%nat -> ca' a b = ca a b).
Proof using Hd.
  intro HB. induction frames as [|f IH]; intros i j k ca Hca Hi Hj Hf Hk HF; [lia|].
  assert (Hm : flt (Fin (-1)) (ca i j) = false). { destruct (big_dec (ca i j)) as [X|X]; [|exact X]. apply HF in X; lia. }
  (* the call for the row above, which is there already or is made now *)
  assert (UP : forall i', i = S i' -> exists ca', fc norm f p q ca i' j = Ok (ffr d i' j, ca', S (rows_calls k (S i' - k) j)) /\ fmemo ca' /\
    (forall a b, (b <= j)%nat -> (big (ca' a b) <-> (a <= i')%nat)) /\ (forall a b, (j < b)%nat -> ca' a b = ca a b)).
  { intros i' ->. destruct (le_lt_dec k i') as [K|K]; [apply IH; auto; lia|]. exists ca. replace (S i' - k)%nat with O by lia.
    split; [apply lookup; [lia|exact Hca|apply HF; lia]|]. split; [exact Hca|]. split; [|auto]. intros a b B. rewrite HF by exact B. lia. }
  cbn [fc]. rewrite Hm. destruct i as [|i], j as [|j].
  - replace k with O in * by lia. rewrite Hd by assumption. cbn [bind]. eexists. split; [reflexivity|]. split; [apply (fset_ok ca 0 0), Hca|]. split.
    + intros a b B. replace b with O by lia. destruct (Nat.eq_dec a 0) as [->|N]; [rewrite fset_here|rewrite fset_other by lia; rewrite HF by lia; lia]. split; [lia|intros _; apply (HB 0%nat 0%nat)].
    + intros a b B. apply fset_other. lia.
  - replace k with O in * by lia. destruct (IH 0%nat j 0%nat ca Hca Hi ltac:(lia) ltac:(lia) ltac:(lia)) as [ca1 [E1 [H1 [F1 G1]]]]; [intros a b B; apply HF; lia|].
    rewrite E1. cbn [bind fst snd]. rewrite Hd by assumption. cbn [bind]. rewrite <- ffr_0S. eexists. split; [cbn [rows_calls Nat.sub row_calls Nat.add]; reflexivity|]. split; [apply fset_ok, H1|]. split.
    + intros a b B. destruct (Nat.eq_dec b (S j)) as [->|Nb].
      * destruct (Nat.eq_dec a 0) as [->|N]; [rewrite fset_here|rewrite fset_other by lia; rewrite G1, HF by lia; lia]. split; [lia|intros _; apply HB].
      * rewrite fset_other by lia. apply F1. lia.
    + intros a b B. rewrite fset_other by lia. apply G1. lia.
  - destruct (UP i eq_refl) as [ca1 [E1 [H1 [F1 G1]]]]. rewrite E1. cbn [bind fst snd]. rewrite Hd by assumption. cbn [bind]. rewrite <- ffr_S0. eexists. split.
    + f_equal. f_equal. rewrite (Nat.sub_succ_l k (S i)) by lia. cbn [rows_calls]. replace (k + (S i - k))%nat with (S i) by lia. cbn [row_calls]. lia.
    + split; [apply fset_ok, H1|]. split.
      * intros a b B. replace b with O by lia. destruct (Nat.eq_dec a (S i)) as [->|N]; [rewrite fset_here|rewrite fset_other, F1 by lia; lia]. split; [lia|intros _; apply HB].
      * intros a b B. rewrite fset_other by lia. apply G1. lia.
  - destruct (UP i eq_refl) as [ca1 [E1 [H1 [F1 G1]]]]. rewrite E1. cbn [bind fst snd].
    rewrite (lookup f ca1 i j ltac:(lia) H1) by (apply F1; lia). cbn [bind fst snd].
    destruct (IH (S i) j (S i) ca1 H1 Hi ltac:(lia) ltac:(lia) ltac:(lia)) as [ca3 [E3 [H3 [F3 G3]]]]; [intros a b B; rewrite F1 by lia; lia|].
    rewrite E3. cbn [bind fst snd]. rewrite Hd by assumption. cbn [bind]. rewrite <- ffr_SS. eexists. split.
    + f_equal. f_equal. rewrite (Nat.sub_succ_l k (S i)) by lia. cbn [rows_calls]. replace (k + (S i - k))%nat with (S i) by lia. replace (S (S i) - S i)%nat with 1%nat by lia. cbn [rows_calls]. rewrite Nat.add_0_r. cbn [row_calls]. lia.
    + split; [apply fset_ok, H3|]. split.
      * intros a b B. destruct (Nat.eq_dec b (S j)) as [->|Nb].
        -- destruct (Nat.eq_dec a (S i)) as [->|N]; [rewrite fset_here|rewrite fset_other, G3, F1 by lia; lia]. split; [lia|intros _; apply HB].
        -- rewrite fset_other by lia. apply F3. lia.
      * intros a b B. rewrite fset_other, G3, G1 by lia. reflexivity.
Qed.
(** Calls, when the first distance is NaN *)
Lemma fc_nan : d O O = Nan -> forall frames i j ca, (forall a b, ~ big (ca a b)) -> (i < length p)%nat -> (j < length q)%nat -> (i + j < frames)%nat ->
  exists ca', fc norm frames p q ca i j = Ok (Nan, ca', tree i j) /\ (forall a b, ~ big (ca' a b)).
Proof using Hd.
  intro HN.
  assert (SB : forall ca i j, (forall a b, ~ big (ca a b)) -> forall a b, ~ big (fset ca i j Nan a b)).
  { intros ca i j H a b. unfold fset. destruct (_ && _)%bool; [discriminate|apply H]. }
  induction frames as [|f IH]; intros i j ca Hca Hi Hj Hf; [lia|]. cbn [fc]. destruct (big_dec (ca i j)) as [Hm|Hm]; [elim (Hca i j Hm)|].
  rewrite Hm. destruct i as [|i], j as [|j].
  - rewrite Hd by assumption. rewrite HN. cbn [bind]. eauto.
  - destruct (IH 0%nat j ca Hca Hi ltac:(lia) ltac:(lia)) as [ca1 [E1 H1]]. rewrite E1. cbn [bind fst snd]. rewrite Hd by assumption. cbn [bind]. eauto.
  - destruct (IH i 0%nat ca Hca ltac:(lia) Hj ltac:(lia)) as [ca1 [E1 H1]]. rewrite E1. cbn [bind fst snd]. rewrite Hd by assumption. cbn [bind]. eauto.
  - destruct (IH i (S j) ca Hca ltac:(lia) ltac:(lia) ltac:(lia)) as [ca1 [E1 H1]]. rewrite E1. cbn [bind fst snd].
    destruct (IH i j ca1 H1 ltac:(lia) ltac:(lia) ltac:(lia)) as [ca2 [E2 H2]]. rewrite E2. cbn [bind fst snd].
    destruct (IH (S i) j ca2 H2 ltac:(lia) ltac:(lia) ltac:(lia)) as [ca3 [E3 H3]]. rewrite E3. cbn [bind fst snd].
    rewrite Hd by assumption. cbn [bind]. rewrite tree_SS. eauto.
Qed.
End Table.
Lemma rows_closed : forall n j, rows_calls 0 (S n) j = (j + n * (3 * j + 1))%nat.
Proof. induction n as [|n IH]; intro j; [cbn; lia|]. cbn [rows_calls] in *. rewrite IH. replace (0 + S n)%nat with (S n) by lia. cbn [row_calls]. lia. Qed.

(** *** frdist *)
Section Top.
Context {A : Type}.
Variable norm : A -> A -> fl.
Definition dof (p q : list A) (i j : nat) : fl := match nth_error p i, nth_error q j with Some a, Some b => norm a b | _, _ => Nan end.
Lemma dof_ok p q i j : (i < length p)%nat -> (j < length q)%nat -> fnorm_at norm p q i j = Ok (dof p q i j).
Proof.
  intros Hi Hj. unfold fnorm_at, dof. apply nth_error_Some in Hi, Hj. destruct (nth_error p i); [|congruence]. destruct (nth_error q j); [reflexivity|congruence].
Qed.
Definition top (frames : nat) (p q : list A) : res (fl * nat) :=
  do (vc, k) <- fc norm frames p q (fun _ _ => Fin (-1)) (length p - 1) (length q - 1); Ok (fst vc, k).
Lemma len_pos (p : list A) : p <> [] -> (0 < length p)%nat. Proof. destruct p; [congruence|cbn; lia]. Qed.
Lemma top_big frames p q : p <> [] -> q <> [] -> (length p + length q - 1 <= frames)%nat -> big (dof p q 0 0) ->
  exists k, top frames p q = Ok (ffr (dof p q) (length p - 1) (length q - 1), k) /\ (k + 2 * length p + 2 * length q = 3 * length p * length q + 2)%nat.
Proof.
  intros Hp Hq F B. pose proof (len_pos p Hp). pose proof (len_pos q Hq).
  destruct (fc_calls norm p q (dof p q) (dof_ok p q) (ffr_big _ B) frames (length p - 1) (length q - 1) 0 (fun _ _ => Fin (-1))) as [ca [E _]]; try lia;
    try (intros i j; left; reflexivity); try (intros a b _; split; [intro X; elim (not_big_m1 X)|lia]).
  unfold top. rewrite E. cbn [bind fst]. eexists. split; [reflexivity|]. rewrite Nat.sub_0_r, rows_closed.
  destruct (length p) as [|n], (length q) as [|m]; lia.
Qed.
Lemma top_nan frames p q : p <> [] -> q <> [] -> (length p + length q - 1 <= frames)%nat -> dof p q 0 0 = Nan ->
  top frames p q = Ok (Nan, tree (length p - 1) (length q - 1)).
Proof.
  intros Hp Hq F N. pose proof (len_pos p Hp). pose proof (len_pos q Hq).
  destruct (fc_nan norm p q (dof p q) (dof_ok p q) N frames (length p - 1) (length q - 1) (fun _ _ => Fin (-1))) as [ca [E _]]; try lia; [intros a b; exact not_big_m1|].
  unfold top. rewrite E. reflexivity.
Qed.
Lemma top_value frames p q : p <> [] -> q <> [] -> (length p + length q - 1 <= frames)%nat ->
  exists k, top frames p q = Ok (ffr (dof p q) (length p - 1) (length q - 1), k).
Proof.
  intros Hp Hq F. pose proof (len_pos p Hp). pose proof (len_pos q Hq).
  destruct (fc_ok norm p q (dof p q) (dof_ok p q) frames (length p - 1) (length q - 1) (fun _ _ => Fin (-1))) as [ca [k [E _]]]; try lia; [intros a b; left; reflexivity|].
  unfold top. rewrite E. exists k. reflexivity.
Qed.
Lemma top_over frames p q : p <> [] -> q <> [] -> (frames < length p + length q - 1)%nat -> top frames p q = Err RecursionError.
Proof. intros Hp Hq F. pose proof (len_pos p Hp). pose proof (len_pos q Hq). unfold top. rewrite fc_overflow by lia. reflexivity. Qed.
Lemma ffrdist_eval frames P Q : P <> [] -> Q <> [] -> exists p q, thinned 2 P Q p q /\ p <> [] /\ q <> [] /\
  (ffrdist norm frames P Q = top frames p q \/ ffrdist norm frames P Q = top frames q p).
Proof.
  intros HP HQ. unfold ffrdist. destruct (Nat.leb (length Q) (length P)).
  - destruct (thin_ok (length P) 2 P Q) as [p [q [E T]]]; try lia. rewrite E. cbn [bind]. pose proof (thinned_props _ _ _ _ _ T) as [_ [N1 [N2 _]]].
    exists p, q. split; [exact T|]. split; [auto|]. split; [auto|]. left. destruct p; [elim (N1 HP); reflexivity|]. destruct q; [elim (N2 HQ); reflexivity|]. reflexivity.
  - destruct (thin_ok (length Q) 2 Q P) as [q [p [E T]]]; try lia. rewrite E. cbn [bind]. pose proof (thinned_props _ _ _ _ _ T) as [_ [N1 [N2 _]]].
    exists p, q. split; [apply thinned_swap, T|]. split; [auto|]. split; [auto|]. right. destruct q; [elim (N1 HQ); reflexivity|]. destruct p; [elim (N2 HP); reflexivity|]. reflexivity.
Qed.
Lemma ffrdist_empty frames P Q : P = [] \/ Q = [] -> ffrdist norm frames P Q = Err IndexError.
Proof.
  intro H. unfold ffrdist. destruct (Nat.leb_spec (length Q) (length P)) as [L|L].
  - assert (Q = []) as -> by (destruct H as [->|H]; [destruct Q; [reflexivity|cbn in L; lia]|exact H]).
    rewrite thin_unfold. unfold both_long. cbn [length Z.of_nat]. rewrite Bool.andb_false_r. destruct P; reflexivity.
  - assert (P = []) as -> by (destruct H as [H| ->]; [exact H|cbn in L; lia]).
    rewrite thin_unfold. unfold both_long. cbn [length Z.of_nat]. rewrite Bool.andb_false_r. destruct Q; reflexivity.
Qed.
Lemma ffrdist_ok frames P Q r : ffrdist norm frames P Q = Ok r -> P <> [] /\ Q <> [].
Proof. intro H. split; intros ->; rewrite ffrdist_empty in H by auto; discriminate. Qed.
Hypothesis Hsym : forall a b, norm a b = norm b a.
Lemma dof_sym p q i j : dof p q i j = dof q p j i.
Proof using Hsym. unfold dof. destruct (nth_error p i), (nth_error q j); try reflexivity. apply Hsym. Qed.
Hypothesis Hnum : forall a b, norm a b = Nan \/ big (norm a b).
Lemma dof_num p q i j : dof p q i j = Nan \/ big (dof p q i j).
Proof using Hnum. unfold dof. destruct (nth_error p i), (nth_error q j); auto. Qed.
Lemma ffr_sym p q i j : ffr (dof p q) i j = ffr (dof q p) j i.
Proof using Hsym Hnum.
  rewrite <- (ffr_swap (dof q p) (dof_num q p 0 0) i j). apply ffr_ext with (n := i) (m := j); [|lia|lia]. intros a b _ _. apply dof_sym.
Qed.
(** The value of frdist, whichever curve is longer *)
Definition fval (p q : list A) : fl := ffr (dof p q) (length p - 1) (length q - 1).
Lemma fval_sym p q : fval p q = fval q p. Proof using Hsym Hnum. apply ffr_sym. Qed.
Lemma ffrdist_value frames P Q : P <> [] -> Q <> [] -> exists p q, thinned 2 P Q p q /\ p <> [] /\ q <> [] /\
  (((length p + length q - 1 <= frames)%nat /\ exists k, ffrdist norm frames P Q = Ok (fval p q, k) /\
      (dof p q 0 0 = Nan -> (forall n, (n < length p -> n < length q -> 3 ^ n <= k)%nat)) /\
      (dof p q 0 0 <> Nan -> (k + 2 * length p + 2 * length q = 3 * length p * length q + 2)%nat)) \/
   ((frames < length p + length q - 1)%nat /\ ffrdist norm frames P Q = Err RecursionError)).
Proof using Hsym Hnum.
  intros HP HQ. destruct (ffrdist_eval frames P Q HP HQ) as [p [q [T [Np [Nq E]]]]]. exists p, q. split; [exact T|]. split; [exact Np|]. split; [exact Nq|].
  assert (G : forall p q, p <> [] -> q <> [] -> ((length p + length q - 1 <= frames)%nat /\ exists k, top frames p q = Ok (fval p q, k) /\
      (dof p q 0 0 = Nan -> (forall n, (n < length p -> n < length q -> 3 ^ n <= k)%nat)) /\
      (dof p q 0 0 <> Nan -> (k + 2 * length p + 2 * length q = 3 * length p * length q + 2)%nat)) \/
   ((frames < length p + length q - 1)%nat /\ top frames p q = Err RecursionError)).
  { clear p q T Np Nq E. intros p q Np Nq. destruct (le_lt_dec (length p + length q - 1) frames) as [F|F]; [left|right; split; [exact F|apply top_over; assumption]].
    split; [exact F|]. destruct (dof_num p q 0 0) as [N|B].
    - exists (tree (length p - 1) (length q - 1)). rewrite top_nan by assumption. unfold fval. rewrite ffr_nan by exact N. split; [reflexivity|]. split; [|congruence]. intros _ n L1 L2. apply tree_ge; lia.
    - destruct (top_big frames p q Np Nq F B) as [k [E C]]. exists k. split; [exact E|]. split; [|auto]. intro X. rewrite X in B. discriminate B. }
  destruct E as [E|E]; rewrite E; [apply G; assumption|]. destruct (G q p Nq Np) as [[F [k [E1 [E2 E3]]]]|[F E1]].
  - left. split; [lia|]. exists k. rewrite fval_sym. split; [exact E1|]. split; [intros N n L1 L2; apply E2; [rewrite dof_sym; exact N|exact L2|exact L1]|]. intro N. rewrite dof_sym in N. specialize (E3 N). lia.
  - right. split; [lia|exact E1].
Qed.
End Top.

(** The memoised recursion computes the discrete Frechet distance. *)
From Coq Require Import Reals Lra Lia.
From Verif Require Import M_Base M_Frechet S_Frechet.
Open Scope R_scope.

Lemma dist_euc_eq a b : dist a b = dist_euc (fst a) (snd a) (fst b) (snd b).
Proof. reflexivity. Qed.
Lemma dist_nonneg a b : 0 <= dist a b.
Proof. unfold dist. apply sqrt_pos. Qed.
Lemma dist_sym a b : dist a b = dist b a.
Proof. unfold dist. f_equal. rewrite (Rsqr_minus_plus_sym (fst a)) || idtac. unfold Rsqr. ring. Qed.
Lemma dist_refl a : dist a a = 0.
Proof. unfold dist. rewrite !Rminus_eq_0 || rewrite !Rminus_diag_eq by reflexivity. unfold Rsqr. rewrite Rmult_0_l, Rplus_0_l. apply sqrt_0. Qed.
Lemma dist_triangle a b c : dist a c <= dist a b + dist b c.
Proof. rewrite !dist_euc_eq. apply triangle. Qed.
Lemma dist_zero a b : dist a b = 0 -> a = b.
Proof.
  unfold dist. intro H. apply sqrt_eq_0 in H; [|apply Rplus_le_le_0_compat; apply Rle_0_sqr].
  pose proof (Rle_0_sqr (fst a - fst b)) as G1. pose proof (Rle_0_sqr (snd a - snd b)) as G2.
  assert (H1 : (fst a - fst b)² = 0) by lra. assert (H2 : (snd a - snd b)² = 0) by lra.
  apply Rsqr_0_uniq in H1, H2. destruct a, b. cbn in *. f_equal; lra.
Qed.

(** *** the value without the memo *)
Section Fr.
Variable d : nat -> nat -> R.
Fixpoint fr (i : nat) : nat -> R :=
  fix fri (j : nat) : R :=
    match i, j with
    | O, O => d 0 0
    | S i', O => Rmax (fr i' 0%nat) (d i 0)
    | O, S j' => Rmax (fri j') (d 0 j)
    | S i', S j' => Rmax (Rmin (Rmin (fr i' j) (fr i' j')) (fri j')) (d i j)
    end.
Lemma fr_00 : fr 0 0 = d 0 0. Proof. reflexivity. Qed.
Lemma fr_S0 i : fr (S i) 0 = Rmax (fr i 0) (d (S i) 0). Proof. reflexivity. Qed.
Lemma fr_0S j : fr 0 (S j) = Rmax (fr 0 j) (d 0 (S j)). Proof. reflexivity. Qed.
Lemma fr_SS i j : fr (S i) (S j) = Rmax (Rmin (Rmin (fr i (S j)) (fr i j)) (fr (S i) j)) (d (S i) (S j)). Proof. reflexivity. Qed.

(** Positions that can be reached keeping all distances within eps. *)
Inductive reach (eps : R) : nat -> nat -> Prop :=
  | reach_0 : d 0 0 <= eps -> reach eps 0 0
  | reach_i i j : reach eps i j -> d (S i) j <= eps -> reach eps (S i) j
  | reach_j i j : reach eps i j -> d i (S j) <= eps -> reach eps i (S j)
  | reach_ij i j : reach eps i j -> d (S i) (S j) <= eps -> reach eps (S i) (S j).

Lemma Rmax_le_iff a b c : Rmax a b <= c <-> a <= c /\ b <= c.
Proof. split; [intro H; split; [eapply Rle_trans; [apply Rmax_l|exact H]|eapply Rle_trans; [apply Rmax_r|exact H]]|intros [? ?]; apply Rmax_lub; assumption]. Qed.
Lemma Rmin_le_iff a b c : Rmin a b <= c <-> a <= c \/ b <= c.
Proof.
  split; [unfold Rmin; destruct (Rle_dec a b); auto|]. intros [H|H]; [eapply Rle_trans; [apply Rmin_l|exact H]|eapply Rle_trans; [apply Rmin_r|exact H]].
Qed.
Lemma reach_here eps i j : reach eps i j -> d i j <= eps.
Proof. destruct 1; assumption. Qed.
Lemma fr_reach eps : forall i j, fr i j <= eps <-> reach eps i j.
Proof.
  induction i as [|i IHi]; induction j as [|j IHj].
  - rewrite fr_00. split; [apply reach_0|apply reach_here].
  - rewrite fr_0S, Rmax_le_iff, IHj. split; [intros [H1 H2]; apply reach_j; assumption|]. intro H. split; [|apply reach_here, H]. inversion H; assumption.
  - rewrite fr_S0, Rmax_le_iff, IHi. split; [intros [H1 H2]; apply reach_i; assumption|]. intro H. split; [|apply reach_here, H]. inversion H; assumption.
  - rewrite fr_SS, Rmax_le_iff, !Rmin_le_iff, !IHi, IHj. split.
    + intros [[[H|H]|H] H2]; [apply reach_i|apply reach_ij|apply reach_j]; assumption.
    + intro H. split; [|apply reach_here, H]. inversion H; subst; auto.
Qed.
Lemma fr_ge i j : d i j <= fr i j.
Proof. apply reach_here, fr_reach, Rle_refl. Qed.
Lemma fr_ge_0 i j : d 0 0 <= fr i j.
Proof.
  assert (H : reach (fr i j) i j) by (apply fr_reach, Rle_refl). revert H. generalize (fr i j). intros e H. induction H; assumption.
Qed.
End Fr.
Lemma fr_ext d d' n m : (forall i j, (i <= n)%nat -> (j <= m)%nat -> d i j = d' i j) -> forall i j, (i <= n)%nat -> (j <= m)%nat -> fr d i j = fr d' i j.
Proof.
  intro H. induction i as [|i IHi]; induction j as [|j IHj]; intros Hi Hj; rewrite ?fr_00, ?fr_0S, ?fr_S0, ?fr_SS.
  - apply H; assumption.
  - rewrite IHj, (H 0%nat) by lia. reflexivity.
  - rewrite IHi, (H (S i)) by lia. reflexivity.
  - rewrite !IHi, IHj, (H (S i)) by lia. reflexivity.
Qed.
Lemma fr_swap d i j : fr (fun a b => d b a) i j = fr d j i.
Proof.
  revert j. induction i as [|i IHi]; induction j as [|j IHj]; rewrite ?fr_00, ?fr_0S, ?fr_S0, ?fr_SS; rewrite ?IHi, ?IHj; try reflexivity.
  f_equal. rewrite (Rmin_comm (Rmin (fr d (S j) i) (fr d j i))), <- Rmin_assoc || idtac.
  unfold Rmin. repeat destruct (Rle_dec _ _); lra.
Qed.
(** *** the table *)
Section Table.
Variables p q : list point.
Let d i j := dist (nth i p (0, 0)) (nth j q (0, 0)).
Definition memo_ok (ca : table) : Prop := forall i j, ca i j = -1 \/ ca i j = fr d i j.
Lemma norm_at_ok i j : (i < length p)%nat -> (j < length q)%nat -> norm_at p q i j = Ok (d i j).
Proof. intros Hi Hj. unfold norm_at. rewrite (nth_error_nth' p (0, 0) Hi), (nth_error_nth' q (0, 0) Hj). reflexivity. Qed.
Lemma set_ok ca i j : memo_ok ca -> memo_ok (set_table ca i j (fr d i j)).
Proof.
  intros H a b. unfold set_table. destruct (Nat.eqb_spec a i), (Nat.eqb_spec b j); cbn [andb]; subst; auto.
Qed.
Lemma fr_pos i j : -1 < fr d i j.
Proof. pose proof (fr_ge d i j). assert (0 <= d i j) by apply dist_nonneg. lra. Qed.
Lemma c_ok : forall frames i j ca, memo_ok ca -> (i < length p)%nat -> (j < length q)%nat -> (i + j < frames)%nat ->
  exists ca', c_ frames p q ca i j = Ok (fr d i j, ca') /\ memo_ok ca'.
Proof.
  induction frames as [|f IH]; intros i j ca Hca Hi Hj Hf; [lia|]. cbn [c_]. destruct (Rlt_dec (-1) (ca i j)) as [Hm|Hm].
  - destruct (Hca i j) as [E|E]; [rewrite E in Hm; lra|]. rewrite E. eauto.
  - destruct i as [|i], j as [|j].
    + rewrite norm_at_ok by assumption. cbn [bind]. eexists. split; [reflexivity|]. apply (set_ok ca 0 0), Hca.
    + destruct (IH 0%nat j ca Hca Hi ltac:(lia) ltac:(lia)) as [ca1 [E1 H1]]. rewrite E1. cbn [bind]. rewrite norm_at_ok by assumption. cbn [bind].
      rewrite <- fr_0S. eexists. split; [reflexivity|]. apply set_ok, H1.
    + destruct (IH i 0%nat ca Hca ltac:(lia) Hj ltac:(lia)) as [ca1 [E1 H1]]. rewrite E1. cbn [bind]. rewrite norm_at_ok by assumption. cbn [bind].
      rewrite <- fr_S0. eexists. split; [reflexivity|]. apply set_ok, H1.
    + destruct (IH i (S j) ca Hca ltac:(lia) ltac:(lia) ltac:(lia)) as [ca1 [E1 H1]]. rewrite E1. cbn [bind].
      destruct (IH i j ca1 H1 ltac:(lia) ltac:(lia) ltac:(lia)) as [ca2 [E2 H2]]. rewrite E2. cbn [bind].
      destruct (IH (S i) j ca2 H2 ltac:(lia) ltac:(lia) ltac:(lia)) as [ca3 [E3 H3]]. rewrite E3. cbn [bind].
      rewrite norm_at_ok by assumption. cbn [bind]. rewrite <- fr_SS. eexists. split; [reflexivity|]. apply set_ok, H3.
Qed.
Lemma c_overflow : forall frames i j, (frames <= i + j)%nat -> c_ frames p q (fun _ _ => -1) i j = Err RecursionError.
Proof.
  induction frames as [|f IH]; intros i j H; [reflexivity|]. cbn [c_]. destruct (Rlt_dec (-1) (-1)) as [Hm|_]; [lra|].
  destruct i as [|i], j as [|j]; [lia| | |]; rewrite IH by lia; reflexivity.
Qed.
End Table.

(** *** couplings *)
Lemma last_cons_indep {A} (l : list A) a x y : last (a :: l) x = last (a :: l) y.
Proof. revert a. induction l as [|b l IH]; intro a; [reflexivity|]. exact (IH b). Qed.
Lemma linked_snoc l : forall a b, linked a (l ++ [b]) <-> linked a l /\ advance (last (a :: l) a) b.
Proof.
  induction l as [|c l IH]; intros a b; [cbn; tauto|]. cbn [app linked]. rewrite IH.
  change (last (a :: c :: l) a) with (last (c :: l) a). rewrite (last_cons_indep l c a c). tauto.
Qed.
Lemma last_snoc {A} (l : list A) a x : last (l ++ [a]) x = a.
Proof. induction l as [|b l IH]; [reflexivity|]. cbn. rewrite IH. destruct (l ++ [a])%list eqn:E; [destruct l; discriminate|reflexivity]. Qed.
Lemma linked_last_mono l : forall a, linked a l -> forall b, In b (a :: l) -> (fst b <= fst (last (a :: l) a) /\ snd b <= snd (last (a :: l) a))%nat /\ (fst a <= fst b /\ snd a <= snd b)%nat.
Proof.
  induction l as [|c l IH]; intros a H b Hb.
  - destruct Hb as [<-|[]]. cbn. lia.
  - destruct H as [Had Hl]. change (last (a :: c :: l) a) with (last (c :: l) a). rewrite (last_cons_indep l c a c).
    assert (Hac : (fst a <= fst c /\ snd a <= snd c)%nat) by (destruct Had as [->|[->| ->]]; cbn; lia).
    destruct Hb as [<-|Hb].
    + pose proof (IH c Hl c (or_introl eq_refl)). lia.
    + pose proof (IH c Hl b Hb). lia.
Qed.
Section Coupling.
Variable d : nat -> nat -> R.
Lemma reach_path eps i j : reach d eps i j -> exists t, linked (O, O) t /\ last ((O, O) :: t) (O, O) = (i, j) /\ forall ij, In ij ((O, O) :: t) -> d (fst ij) (snd ij) <= eps.
Proof.
  assert (G : forall a b, (exists t, linked (O, O) t /\ last ((O, O) :: t) (O, O) = a /\ forall ij, In ij ((O, O) :: t) -> d (fst ij) (snd ij) <= eps) ->
    advance a b -> d (fst b) (snd b) <= eps ->
    exists t, linked (O, O) t /\ last ((O, O) :: t) (O, O) = b /\ forall ij, In ij ((O, O) :: t) -> d (fst ij) (snd ij) <= eps).
  { intros a b [t [H1 [H2 H3]]] Hab Hd. exists (t ++ [b])%list. split; [apply linked_snoc; rewrite H2; auto|]. split; [apply (last_snoc ((O, O) :: t))|].
    intros ij Hin. change ((O, O) :: t ++ [b])%list with (((O, O) :: t) ++ [b])%list in Hin. apply in_app_iff in Hin as [Hin|[<-|[]]]; auto. }
  induction 1 as [H0|i j _ IH H0|i j _ IH H0|i j _ IH H0].
  - exists []. split; [exact I|]. split; [reflexivity|]. intros ij [<-|[]]. exact H0.
  - eapply G; [exact IH|left; reflexivity|exact H0].
  - eapply G; [exact IH|right; left; reflexivity|exact H0].
  - eapply G; [exact IH|right; right; reflexivity|exact H0].
Qed.
Lemma path_reach eps t : linked (O, O) t -> (forall ij, In ij ((O, O) :: t) -> d (fst ij) (snd ij) <= eps) ->
  reach d eps (fst (last ((O, O) :: t) (O, O))) (snd (last ((O, O) :: t) (O, O))).
Proof.
  induction t as [|b t IH] using rev_ind; intros HL HD; [apply reach_0, (HD (O, O)); left; reflexivity|].
  apply linked_snoc in HL as [HL HA]. change ((O, O) :: t ++ [b])%list with (((O, O) :: t) ++ [b])%list in *. rewrite last_snoc.
  assert (HR : reach d eps (fst (last ((O, O) :: t) (O, O))) (snd (last ((O, O) :: t) (O, O)))) by (apply IH; [exact HL|intros ij Hij; apply HD, in_app_iff; left; exact Hij]).
  assert (Hb : d (fst b) (snd b) <= eps) by (apply HD, in_app_iff; right; left; reflexivity).
  destruct HA as [->|[->| ->]]; cbn [fst snd] in *; [apply reach_i|apply reach_j|apply reach_ij]; assumption.
Qed.
End Coupling.

Lemma list_max_exists {A} (f : A -> R) l : l <> [] -> exists x, In x l /\ forall y, In y l -> f y <= f x.
Proof.
  induction l as [|a l IH]; [congruence|]. intros _. destruct l as [|b l].
  - exists a. split; [left; reflexivity|]. intros y [<-|[]]. lra.
  - destruct IH as [x [H1 H2]]; [discriminate|]. destruct (Rle_dec (f x) (f a)) as [H|H].
    + exists a. split; [left; reflexivity|]. intros y [<-|Hy]; [lra|]. specialize (H2 y Hy). lra.
    + exists x. split; [right; exact H1|]. intros y [<-|Hy]; [lra|]. auto.
Qed.
Section IsFrechet.
Variables P Q : list point.
Hypothesis HP : P <> [].
Hypothesis HQ : Q <> [].
Let d i j := dist (nth i P (0, 0)) (nth j Q (0, 0)).
Lemma lenP : (0 < length P)%nat. Proof. destruct P; [congruence|cbn; lia]. Qed.
Lemma lenQ : (0 < length Q)%nat. Proof. destruct Q; [congruence|cbn; lia]. Qed.
Lemma pair_distance_d ij x : (fst ij < length P)%nat -> (snd ij < length Q)%nat -> (pair_distance P Q ij x <-> x = d (fst ij) (snd ij)).
Proof.
  intros H1 H2. unfold pair_distance. rewrite (nth_error_nth' P (0, 0) H1), (nth_error_nth' Q (0, 0) H2). split.
  - intros [a [b [E1 [E2 ->]]]]. injection E1 as <-. injection E2 as <-. reflexivity.
  - intros ->. eauto.
Qed.
Lemma coupling_range l : coupling (length P) (length Q) l -> forall ij, In ij l -> (fst ij < length P /\ snd ij < length Q)%nat.
Proof.
  intros [t [-> [HL HE]]] ij Hin. pose proof (linked_last_mono t (O, O) HL ij Hin) as [H _]. rewrite HE in H. cbn [fst snd] in H.
  pose proof lenP. pose proof lenQ. lia.
Qed.
Lemma coupling_length_d l x : coupling (length P) (length Q) l -> (coupling_length P Q l x <->
  (exists ij, In ij l /\ x = d (fst ij) (snd ij)) /\ forall ij, In ij l -> d (fst ij) (snd ij) <= x).
Proof.
  intro HC. pose proof (coupling_range l HC) as HR. unfold coupling_length. split; intros [[ij [H1 H2]] H3]; destruct (HR ij H1) as [R1 R2].
  - split; [exists ij; split; [exact H1|apply pair_distance_d; assumption]|]. intros ab Hab. destruct (HR ab Hab). apply (H3 ab); [exact Hab|]. apply pair_distance_d; auto.
  - split; [exists ij; split; [exact H1|apply pair_distance_d; assumption]|]. intros ab d' Hab Hd. destruct (HR ab Hab). apply pair_distance_d in Hd; auto. subst d'. auto.
Qed.
Lemma fr_le_coupling l x : coupling (length P) (length Q) l -> (forall ij, In ij l -> d (fst ij) (snd ij) <= x) -> fr d (length P - 1) (length Q - 1) <= x.
Proof.
  intros [t [-> [HL HE]]] H. apply fr_reach. pose proof (path_reach d x t HL H) as HR. rewrite HE in HR. exact HR.
Qed.
Lemma fr_is_frechet : is_frechet P Q (fr d (length P - 1) (length Q - 1)).
Proof.
  set (v := fr d (length P - 1) (length Q - 1)).
  assert (HL : forall l d', coupling (length P) (length Q) l -> coupling_length P Q l d' -> v <= d').
  { intros l d' HC HD. apply coupling_length_d in HD as [_ HD]; [|exact HC]. apply (fr_le_coupling l); assumption. }
  split; [|exact HL].
  destruct (reach_path d v (length P - 1) (length Q - 1)) as [t [H1 [H2 H3]]]; [apply fr_reach, Rle_refl|].
  assert (HC : coupling (length P) (length Q) ((O, O) :: t)) by (exists t; auto).
  exists ((O, O) :: t). split; [exact HC|].
  destruct (list_max_exists (fun ij => d (fst ij) (snd ij)) ((O, O) :: t)) as [ij [M1 M2]]; [discriminate|].
  apply coupling_length_d; [exact HC|]. split; [|exact H3]. exists ij. split; [exact M1|]. apply Rle_antisym; [|apply H3, M1].
  apply (HL ((O, O) :: t)); [exact HC|]. apply coupling_length_d; [exact HC|]. split; [exists ij; auto|exact M2].
Qed.
Lemma is_frechet_unique x y : is_frechet P Q x -> is_frechet P Q y -> x = y.
Proof. intros [[l [A1 A2]] A3] [[l' [B1 B2]] B3]. apply Rle_antisym; [apply (A3 l'); assumption|apply (B3 l); assumption]. Qed.
Lemma is_frechet_fr x : is_frechet P Q x -> x = fr d (length P - 1) (length Q - 1).
Proof. intro H. apply is_frechet_unique; [exact H|apply fr_is_frechet]. Qed.
End IsFrechet.

(** Thinning, metric laws, curve length, similarity. *)
From Coq Require Import Reals Lra Lia.
From Flocq Require Import Core.
From Verif Require Import M_Base M_Frechet S_Frechet L_Frechet.
Open Scope R_scope.

(** *** thinning *)
Lemma every_le {A} c : forall (l : list A) k, (length (every c k l) <= length l - Nat.min k (length l))%nat.
Proof.
  induction l as [|x l IH]; intro k; [cbn; lia|]. destruct k as [|k]; cbn [every length].
  - pose proof (IH (c - 1)%nat). lia.
  - pose proof (IH k). lia.
Qed.
Lemma every_shorter {A} c (l : list A) : (2 <= c)%nat -> (2 <= length l)%nat -> (length (every c 0 l) < length l)%nat.
Proof. intros Hc Hl. destruct l as [|x l]; [cbn in Hl; lia|]. cbn [every length] in *. pose proof (every_le c l (c - 1)). lia. Qed.
Lemma every_nil {A} c (l : list A) : l <> [] -> every c 0 l <> [].
Proof. destruct l; [congruence|]. discriminate. Qed.
Lemma every_head {A} c (l : list A) : hd_error (every c 0 l) = hd_error l.
Proof. destruct l; reflexivity. Qed.
Lemma every_in {A} c : forall (l : list A) k a, In a (every c k l) -> In a l.
Proof. induction l as [|x l IH]; intros k a H; [exact H|]. destruct k; cbn in H; [destruct H as [->|H]; [left; reflexivity|]|]; right; eapply IH, H. Qed.
Lemma every_map {A B} c (f : A -> B) : forall l k, every c k (map f l) = map f (every c k l).
Proof. induction l as [|x l IH]; intro k; [reflexivity|]. destruct k; cbn [every map]; rewrite IH; reflexivity. Qed.
Lemma every_repeat {A} c (x : A) : forall n k, exists m, every c k (repeat x n) = repeat x m.
Proof.
  induction n as [|n IH]; intro k; [exists O; reflexivity|]. destruct k; cbn [every repeat]; [destruct (IH (c - 1)%nat) as [m ->]; exists (S m); reflexivity|apply IH].
Qed.

Definition both_long {A} (p q : list A) : bool := ((300 <? Z.of_nat (length p))%Z && (300 <? Z.of_nat (length q))%Z)%bool.
Lemma both_long_false {A} (p q : list A) : both_long p q = false <-> not_thinned p q.
Proof. unfold both_long, not_thinned. rewrite andb_false_iff, !Z.ltb_ge. tauto. Qed.
Lemma thin_unfold {A} fuel c (p q : list A) : thin fuel c p q = if both_long p q then match fuel with O => Err OutOfFuel | S f => thin f (c + 1) (every c 0 p) (every c 0 q) end else Ok (p, q).
Proof. destruct fuel; reflexivity. Qed.
(** Thinned curves: what both curves keep. *)
Inductive thinned {A} : nat -> list A -> list A -> list A -> list A -> Prop :=
  | thinned_stop c p q : not_thinned p q -> thinned c p q p q
  | thinned_more c p q p' q' : both_long p q = true -> thinned (c + 1) (every c 0 p) (every c 0 q) p' q' -> thinned c p q p' q'.
Lemma thin_ok {A} fuel : forall c (p q : list A), (2 <= c)%nat -> (length p <= fuel)%nat -> exists p' q', thin fuel c p q = Ok (p', q') /\ thinned c p q p' q'.
Proof.
  induction fuel as [|f IH]; intros c p q Hc Hl; rewrite thin_unfold; destruct (both_long p q) eqn:E.
  - unfold both_long in E. apply andb_true_iff in E as [E _]. apply Z.ltb_lt in E. lia.
  - exists p, q. split; [reflexivity|]. constructor. apply both_long_false, E.
  - pose proof E as E'. unfold both_long in E'. apply andb_true_iff in E' as [E' _]. apply Z.ltb_lt in E'.
    destruct (IH (c + 1)%nat (every c 0 p) (every c 0 q)) as [p' [q' [H1 H2]]]; [lia|pose proof (every_shorter c p Hc ltac:(lia)); lia|].
    exists p', q'. split; [exact H1|]. apply thinned_more; assumption.
  - exists p, q. split; [reflexivity|]. constructor. apply both_long_false, E.
Qed.
Lemma thinned_props {A} c (p q p' q' : list A) : thinned c p q p' q' -> not_thinned p' q' /\ (p <> [] -> p' <> []) /\ (q <> [] -> q' <> []) /\
  hd_error p' = hd_error p /\ hd_error q' = hd_error q /\ (forall a, In a p' -> In a p) /\ (forall a, In a q' -> In a q).
Proof.
  induction 1 as [c p q H|c p q p' q' E _ IH]; [tauto|]. destruct IH as [A' [B [C [D [F [G K]]]]]].
  split; [exact A'|]. split; [intro; apply B, every_nil; assumption|]. split; [intro; apply C, every_nil; assumption|].
  split; [rewrite D; apply every_head|]. split; [rewrite F; apply every_head|]. split; intros a Ha; [apply G in Ha|apply K in Ha]; eapply every_in, Ha.
Qed.
Lemma both_long_comm {A} (p q : list A) : both_long p q = both_long q p.
Proof. unfold both_long. apply andb_comm. Qed.
Lemma thinned_swap {A} c (p q p' q' : list A) : thinned c p q p' q' -> thinned c q p q' p'.
Proof.
  induction 1 as [c p q H|c p q p' q' E _ IH]; [constructor; unfold not_thinned in *; tauto|]. apply thinned_more; [rewrite both_long_comm; exact E|exact IH].
Qed.
Lemma thinned_unique {A} c (p q p1 q1 : list A) : thinned c p q p1 q1 -> forall p2 q2, thinned c p q p2 q2 -> p1 = p2 /\ q1 = q2.
Proof.
  induction 1 as [c p q H|c p q p' q' E _ IH]; intros p2 q2 H2; inversion H2; subst; auto.
  - apply both_long_false in H. congruence.
  - match goal with H : not_thinned _ _ |- _ => apply both_long_false in H; congruence end.
Qed.
Lemma thinned_self {A} c (p p' q' : list A) : thinned c p p p' q' -> p' = q'.
Proof.
  intro H. remember p as q in H at 2. revert Heqq. induction H as [c p q H|c p q p' q' E _ IH]; intros ->; [reflexivity|]. apply IH. reflexivity.
Qed.
Lemma thinned_map {A B} c (f : A -> B) (p q p' q' : list A) : thinned c p q p' q' -> thinned c (map f p) (map f q) (map f p') (map f q').
Proof.
  induction 1 as [c p q H|c p q p' q' E _ IH]; [constructor; unfold not_thinned in *; rewrite !map_length; exact H|].
  apply thinned_more; [unfold both_long in *; rewrite !map_length; exact E|]. rewrite !every_map. exact IH.
Qed.

(** *** frdist *)
Definition dd (p q : list point) (i j : nat) : R := dist (nth i p (0, 0)) (nth j q (0, 0)).
Definition fvalue (p q : list point) : R := fr (dd p q) (length p - 1) (length q - 1).
Definition outcome (frames : nat) (p q : list point) : res R :=
  if Nat.leb (length p + length q - 1) frames then Ok (fvalue p q) else Err RecursionError.
Lemma fvalue_sym p q : fvalue p q = fvalue q p.
Proof.
  unfold fvalue. rewrite <- fr_swap. apply fr_ext with (n := (length q - 1)%nat) (m := (length p - 1)%nat); try lia.
  intros. unfold dd. apply dist_sym.
Qed.
Lemma outcome_sym frames p q : outcome frames p q = outcome frames q p.
Proof. unfold outcome. rewrite Nat.add_comm, fvalue_sym. reflexivity. Qed.
Lemma c_outcome frames p q : p <> [] -> q <> [] ->
  (do (v, _) <- c_ frames p q (fun _ _ => -1) (length p - 1) (length q - 1); Ok v) = outcome frames p q.
Proof.
  intros Hp Hq. assert (0 < length p /\ 0 < length q)%nat as [Lp Lq] by (destruct p, q; try congruence; cbn; lia).
  unfold outcome. destruct (Nat.leb_spec (length p + length q - 1) frames) as [H|H].
  - destruct (c_ok p q frames (length p - 1) (length q - 1) (fun _ _ => -1)) as [ca [E _]]; try lia; [intros i j; left; reflexivity|]. rewrite E. reflexivity.
  - rewrite c_overflow by lia. reflexivity.
Qed.
Lemma frdist_eval frames P Q : P <> [] -> Q <> [] -> exists p q, thinned 2 P Q p q /\ p <> [] /\ q <> [] /\ frdist frames P Q = outcome frames p q.
Proof.
  intros HP HQ. unfold frdist. destruct (Nat.leb (length Q) (length P)).
  - destruct (thin_ok (length P) 2 P Q) as [p [q [E T]]]; try lia. rewrite E. cbn [bind]. pose proof (thinned_props _ _ _ _ _ T) as [_ [A [B _]]].
    exists p, q. split; [exact T|]. split; [auto|]. split; [auto|]. rewrite <- (c_outcome frames p q) by auto.
    destruct p; [elim (A HP); reflexivity|]. destruct q; [elim (B HQ); reflexivity|]. reflexivity.
  - destruct (thin_ok (length Q) 2 Q P) as [q [p [E T]]]; try lia. rewrite E. cbn [bind]. pose proof (thinned_props _ _ _ _ _ T) as [_ [A [B _]]].
    exists p, q. split; [apply thinned_swap, T|]. split; [auto|]. split; [auto|]. rewrite outcome_sym, <- (c_outcome frames q p) by auto.
    destruct q; [elim (A HQ); reflexivity|]. destruct p; [elim (B HP); reflexivity|]. reflexivity.
Qed.
Lemma frdist_plain frames P Q : P <> [] -> Q <> [] -> not_thinned P Q -> frdist frames P Q = outcome frames P Q.
Proof.
  intros HP HQ H. destruct (frdist_eval frames P Q HP HQ) as [p [q [T [_ [_ E]]]]].
  destruct (thinned_unique _ _ _ _ _ T P Q (thinned_stop 2 P Q H)) as [-> ->]. exact E.
Qed.
Lemma frdist_empty frames P Q : P = [] \/ Q = [] -> frdist frames P Q = Err IndexError.
Proof.
  intro H. unfold frdist. destruct (Nat.leb_spec (length Q) (length P)) as [L|L].
  - assert (Q = []) as -> by (destruct H as [->|H]; [destruct Q; [reflexivity|cbn in L; lia]|exact H]).
    rewrite thin_unfold. unfold both_long. cbn [length Z.of_nat]. rewrite andb_false_r. destruct P; reflexivity.
  - assert (P = []) as -> by (destruct H as [H| ->]; [exact H|cbn in L; lia]).
    rewrite thin_unfold. unfold both_long. cbn [length Z.of_nat]. rewrite andb_false_r. destruct Q; reflexivity.
Qed.
Lemma fvalue_frechet p q : p <> [] -> q <> [] -> is_frechet p q (fvalue p q).
Proof. intros Hp Hq. apply fr_is_frechet; assumption. Qed.
Lemma fvalue_nonneg p q : 0 <= fvalue p q.
Proof. unfold fvalue. pose proof (fr_ge (dd p q) (length p - 1) (length q - 1)). assert (0 <= dd p q (length p - 1) (length q - 1)) by apply dist_nonneg. lra. Qed.
Lemma frdist_sym frames P Q : frdist frames P Q = frdist frames Q P.
Proof.
  destruct P as [|a P]; [rewrite !frdist_empty by auto; reflexivity|]. destruct Q as [|b Q]; [rewrite !frdist_empty by auto; reflexivity|].
  destruct (frdist_eval frames (a :: P) (b :: Q)) as [p [q [T [_ [_ E]]]]]; try discriminate.
  destruct (frdist_eval frames (b :: Q) (a :: P)) as [q' [p' [T' [_ [_ E']]]]]; try discriminate.
  apply thinned_swap in T'. destruct (thinned_unique _ _ _ _ _ T _ _ T') as [-> ->]. rewrite E, E'. apply outcome_sym.
Qed.
Lemma frdist_ok frames P Q v : frdist frames P Q = Ok v -> P <> [] /\ Q <> [] /\ exists p q, thinned 2 P Q p q /\ p <> [] /\ q <> [] /\ v = fvalue p q.
Proof.
  intro H. assert (P <> []) by (intros ->; rewrite frdist_empty in H by auto; discriminate).
  assert (Q <> []) by (intros ->; rewrite frdist_empty in H by auto; discriminate). split; [assumption|]. split; [assumption|].
  destruct (frdist_eval frames P Q) as [p [q [T [A [B E]]]]]; auto. exists p, q. split; [exact T|]. split; [exact A|]. split; [exact B|].
  rewrite E in H. unfold outcome in H. destruct (Nat.leb _ _); [injection H as ->; reflexivity|discriminate].
Qed.
Lemma diag_reach (d : nat -> nat -> R) eps n : (forall i, (i <= n)%nat -> d i i <= eps) -> reach d eps n n.
Proof. induction n as [|n IH]; intro H; [apply reach_0, H; lia|]. apply reach_ij; [apply IH; intros; apply H; lia|apply H; lia]. Qed.
Lemma fvalue_self p : fvalue p p = 0.
Proof.
  apply Rle_antisym; [|apply fvalue_nonneg]. unfold fvalue. apply fr_reach, diag_reach. intros i _. unfold dd. rewrite dist_refl. lra.
Qed.
Lemma nth_hd {A} (l : list A) a x : hd_error l = Some a -> nth 0 l x = a.
Proof. destruct l; [discriminate|]. cbn. congruence. Qed.
Lemma fvalue_first p q a b : hd_error p = Some a -> hd_error q = Some b -> dist a b <= fvalue p q.
Proof. intros Ha Hb. pose proof (fr_ge_0 (dd p q) (length p - 1) (length q - 1)) as H. unfold dd at 1 in H. rewrite (nth_hd p a _ Ha), (nth_hd q b _ Hb) in H. exact H. Qed.
Lemma nth_last {A} (l : list A) x : nth (length l - 1) l x = last l x.
Proof.
  induction l as [|a l IH]; [reflexivity|]. destruct l as [|b l]; [reflexivity|]. cbn [length]. replace (S (S (length l)) - 1)%nat with (S (length l)) by lia.
  cbn [nth]. change (last (a :: b :: l) x) with (last (b :: l) x). rewrite <- IH. cbn [length]. replace (S (length l) - 1)%nat with (length l) by lia. reflexivity.
Qed.
Lemma fvalue_last p q x : p <> [] -> q <> [] -> dist (last p x) (last q x) <= fvalue p q.
Proof.
  intros Hp Hq. pose proof (fr_ge (dd p q) (length p - 1) (length q - 1)) as H. unfold dd at 1 in H. rewrite !nth_last in H.
  replace (last p x) with (last p (0, 0)); [replace (last q x) with (last q (0, 0)); [exact H|]|].
  - destruct q; [congruence|]. apply last_cons_indep.
  - destruct p; [congruence|]. apply last_cons_indep.
Qed.
(** Zero distance. *)
Lemma zero_reach p q : no_repeat p -> no_repeat q -> forall i j, (i < length p)%nat -> (j < length q)%nat -> reach (dd p q) 0 i j ->
  i = j /\ forall k, (k <= i)%nat -> nth k p (0, 0) = nth k q (0, 0).
Proof.
  intros Np Nq i j Hi Hj H. induction H as [H0|i j Hr IH H0|i j Hr IH H0|i j Hr IH H0].
  - split; [reflexivity|]. intros k Hk. assert (k = O) as -> by lia. apply dist_zero. apply Rle_antisym; [exact H0|apply dist_nonneg].
  - destruct (IH ltac:(lia) Hj) as [-> IH2]. exfalso.
    assert (E1 : nth (S j) p (0, 0) = nth j q (0, 0)) by (apply dist_zero, Rle_antisym; [exact H0|apply dist_nonneg]).
    apply (Np j (nth j p (0, 0)) (nth (S j) p (0, 0))); [apply nth_error_nth'; lia|apply nth_error_nth'; lia|]. rewrite E1. apply IH2. lia.
  - destruct (IH Hi ltac:(lia)) as [-> IH2]. exfalso.
    assert (E1 : nth j p (0, 0) = nth (S j) q (0, 0)) by (apply dist_zero, Rle_antisym; [exact H0|apply dist_nonneg]).
    apply (Nq j (nth j q (0, 0)) (nth (S j) q (0, 0))); [apply nth_error_nth'; lia|apply nth_error_nth'; lia|]. rewrite <- E1. symmetry. apply IH2. lia.
  - destruct (IH ltac:(lia) ltac:(lia)) as [-> IH2]. split; [reflexivity|]. intros k Hk. destruct (Nat.eq_dec k (S j)) as [->|]; [|apply IH2; lia].
    apply dist_zero, Rle_antisym; [exact H0|apply dist_nonneg].
Qed.
Lemma fvalue_zero p q : p <> [] -> q <> [] -> no_repeat p -> no_repeat q -> fvalue p q = 0 -> p = q.
Proof.
  intros Hp Hq Np Nq H. assert (0 < length p /\ 0 < length q)%nat as [Lp Lq] by (destruct p, q; try congruence; cbn; lia).
  destruct (zero_reach p q Np Nq (length p - 1) (length q - 1)) as [E1 E2]; try lia; [apply fr_reach; unfold fvalue in H; lra|].
  apply nth_ext with (d := (0, 0)) (d' := (0, 0)); [lia|]. intros n Hn. apply E2. lia.
Qed.
(** Triangle inequality. *)
Lemma reach_compose p q r e1 e2 : forall n i j k, (i + j + j + k <= n)%nat -> reach (dd p q) e1 i j -> reach (dd q r) e2 j k -> reach (dd p r) (e1 + e2) i k.
Proof.
  assert (T : forall i j k, dd p q i j <= e1 -> dd q r j k <= e2 -> dd p r i k <= e1 + e2).
  { intros i j k H1 H2. unfold dd in *. pose proof (dist_triangle (nth i p (0, 0)) (nth j q (0, 0)) (nth k r (0, 0))). lra. }
  induction n as [|n IH]; intros i j k Hn H1 H2.
  - pose proof (reach_here _ _ _ _ H1). pose proof (reach_here _ _ _ _ H2). assert (i = O /\ j = O /\ k = O)%nat as [-> [-> ->]] by lia. apply reach_0, (T 0%nat 0%nat 0%nat); assumption.
  - pose proof (reach_here _ _ _ _ H1) as D1. pose proof (reach_here _ _ _ _ H2) as D2. pose proof (T i j k D1 D2) as D.
    inversion H1 as [|i0 j0 A1 A2|i0 j0 A1 A2|i0 j0 A1 A2]; subst.
    + inversion H2 as [|j0 k0 B1 B2|j0 k0 B1 B2|j0 k0 B1 B2]; subst; [apply reach_0, D|].
      apply reach_j; [|exact D]. apply (IH 0%nat 0%nat k0); [lia|exact H1|exact B1].
    + apply reach_i; [|exact D]. apply (IH i0 j k); [lia|exact A1|exact H2].
    + inversion H2 as [|j1 k0 B1 B2|j1 k0 B1 B2|j1 k0 B1 B2]; subst.
      * apply (IH i j0 k); [lia|exact A1|exact B1].
      * apply reach_j; [|exact D]. apply (IH i (S j0) k0); [lia|exact H1|exact B1].
      * apply reach_j; [|exact D]. apply (IH i j0 k0); [lia|exact A1|exact B1].
    + inversion H2 as [|j1 k0 B1 B2|j1 k0 B1 B2|j1 k0 B1 B2]; subst.
      * apply reach_i; [|exact D]. apply (IH i0 j0 k); [lia|exact A1|exact B1].
      * apply reach_j; [|exact D]. apply (IH (S i0) (S j0) k0); [lia|exact H1|exact B1].
      * apply reach_ij; [|exact D]. apply (IH i0 j0 k0); [lia|exact A1|exact B1].
Qed.
Lemma fvalue_triangle p q r : fvalue p r <= fvalue p q + fvalue q r.
Proof.
  unfold fvalue. apply fr_reach. eapply (reach_compose p q r); [apply le_n| |]; apply fr_reach, Rle_refl.
Qed.

(** *** curve length *)
Lemma arc_from_acc l : forall acc, arc_from acc l = acc + arc_length l.
Proof.
  unfold arc_length. induction l as [|a l IH]; intro acc; [cbn; lra|]. destruct l as [|b l]; [cbn; lra|].
  change (arc_from acc (a :: b :: l)) with (arc_from (acc + dist a b) (b :: l)). change (arc_from 0 (a :: b :: l)) with (arc_from (0 + dist a b) (b :: l)).
  rewrite (IH (acc + dist a b)), (IH (0 + dist a b)). lra.
Qed.
Lemma arc_cons a b l : arc_length (a :: b :: l) = dist a b + arc_length (b :: l).
Proof. unfold arc_length at 1. change (arc_from 0 (a :: b :: l)) with (arc_from (0 + dist a b) (b :: l)). rewrite arc_from_acc. lra. Qed.
Lemma arc_single a : arc_length [a] = 0. Proof. reflexivity. Qed.
Lemma arc_nonneg l : 0 <= arc_length l.
Proof. induction l as [|a l IH]; [cbn; lra|]. destruct l as [|b l]; [cbn; lra|]. rewrite arc_cons. pose proof (dist_nonneg a b). lra. Qed.
Lemma arc_app l1 x l2 : arc_length (l1 ++ x :: l2) = arc_length (l1 ++ [x]) + arc_length (x :: l2).
Proof.
  induction l1 as [|a l1 IH]; [cbn [app]; rewrite arc_single; lra|]. destruct l1 as [|b l1]; cbn [app] in *.
  - rewrite !arc_cons, arc_single. lra.
  - rewrite !arc_cons, IH. lra.
Qed.
Lemma arc_rev l : arc_length (rev l) = arc_length l.
Proof.
  induction l as [|a l IH]; [reflexivity|]. destruct l as [|b l]; [reflexivity|]. rewrite arc_cons, <- IH. cbn [rev]. rewrite <- app_assoc. cbn [app].
  rewrite arc_app, arc_cons, arc_single, (dist_sym b a). lra.
Qed.
Lemma arc_map f k l : (forall a b, dist (f a) (f b) = k * dist a b) -> arc_length (map f l) = k * arc_length l.
Proof.
  intro H. induction l as [|a l IH]; [cbn; lra|]. destruct l as [|b l]; [cbn; lra|]. cbn [map] in *. rewrite !arc_cons, H, IH. lra.
Qed.
Lemma arc_chord a l : dist a (last (a :: l) a) <= arc_length (a :: l).
Proof.
  revert a. induction l as [|b l IH]; intro a; [cbn [last]; rewrite dist_refl, arc_single; lra|].
  change (last (a :: b :: l) a) with (last (b :: l) a). rewrite (last_cons_indep l b a b), arc_cons.
  pose proof (dist_triangle a b (last (b :: l) b)). pose proof (IH b). lra.
Qed.

(** *** transformations *)
Lemma dist_translate u a b : dist (fst a + fst u, snd a + snd u) (fst b + fst u, snd b + snd u) = 1 * dist a b.
Proof. unfold dist. cbn [fst snd]. rewrite Rmult_1_l. f_equal. unfold Rsqr. ring. Qed.
Lemma dist_rotate t a b : dist (cos t * fst a - sin t * snd a, sin t * fst a + cos t * snd a) (cos t * fst b - sin t * snd b, sin t * fst b + cos t * snd b) = 1 * dist a b.
Proof.
  unfold dist. cbn [fst snd]. rewrite Rmult_1_l. f_equal. pose proof (sin2_cos2 t) as H.
  transitivity (((sin t)² + (cos t)²) * ((fst a - fst b)² + (snd a - snd b)²)); [unfold Rsqr; ring|rewrite H; ring].
Qed.
Lemma dist_scale k a b : dist (k * fst a, k * snd a) (k * fst b, k * snd b) = Rabs k * dist a b.
Proof.
  unfold dist. cbn [fst snd]. replace ((k * fst a - k * fst b)² + (k * snd a - k * snd b)²) with (k² * ((fst a - fst b)² + (snd a - snd b)²)) by (unfold Rsqr; ring).
  rewrite sqrt_mult by (try apply Rle_0_sqr; apply Rplus_le_le_0_compat; apply Rle_0_sqr). rewrite sqrt_Rsqr_abs. reflexivity.
Qed.
Lemma Rmax_scale k x y : 0 <= k -> Rmax (k * x) (k * y) = k * Rmax x y.
Proof. intro H. symmetry. apply RmaxRmult, H || (rewrite RmaxRmult; auto). Qed.
Lemma Rmin_scale k x y : 0 <= k -> Rmin (k * x) (k * y) = k * Rmin x y.
Proof.
  intro H. unfold Rmin. destruct (Rle_dec x y) as [L|L], (Rle_dec (k * x) (k * y)) as [M|M]; try reflexivity.
  - elim M. apply Rmult_le_compat_l; assumption.
  - apply Rle_antisym; [|apply Rmult_le_compat_l; lra]. assumption.
Qed.
Lemma fr_scale k d i j : 0 <= k -> fr (fun a b => k * d a b) i j = k * fr d i j.
Proof.
  intro Hk. revert j. induction i as [|i IHi]; induction j as [|j IHj]; rewrite ?fr_00, ?fr_0S, ?fr_S0, ?fr_SS; rewrite ?IHi, ?IHj, ?Rmin_scale, ?Rmax_scale by exact Hk; reflexivity.
Qed.
Definition res_map {A B} (f : A -> B) (x : res A) : res B := match x with Ok a => Ok (f a) | Err e => Err e end.
Lemma frdist_map frames f k P Q : 0 <= k -> (forall a b, dist (f a) (f b) = k * dist a b) ->
  frdist frames (map f P) (map f Q) = res_map (Rmult k) (frdist frames P Q).
Proof.
  intros Hk Hf. destruct P as [|a P]; [rewrite !frdist_empty by auto; reflexivity|]. destruct Q as [|b Q]; [rewrite !frdist_empty by auto; reflexivity|].
  destruct (frdist_eval frames (a :: P) (b :: Q)) as [p [q [T [Np [Nq E]]]]]; try discriminate.
  destruct (frdist_eval frames (map f (a :: P)) (map f (b :: Q))) as [p' [q' [T' [_ [_ E']]]]]; try discriminate.
  destruct (thinned_unique _ _ _ _ _ T' _ _ (thinned_map _ f _ _ _ _ T)) as [-> ->]. rewrite E, E'. unfold outcome. rewrite !map_length.
  destruct (Nat.leb _ _); [|reflexivity]. cbn [res_map]. f_equal. unfold fvalue. rewrite !map_length, <- fr_scale by exact Hk.
  assert (0 < length p /\ 0 < length q)%nat as [Lp Lq] by (destruct p, q; try congruence; cbn; lia).
  apply fr_ext with (n := (length p - 1)%nat) (m := (length q - 1)%nat); try lia. intros i j Hi Hj. unfold dd.
  rewrite (nth_indep (map f p) (0, 0) (f (0, 0))), (nth_indep (map f q) (0, 0) (f (0, 0))) by (rewrite map_length; lia). rewrite !map_nth. apply Hf.
Qed.

(** *** similarity *)
Lemma round4_mono x y : x <= y -> round4 x <= round4 y.
Proof.
  intro H. unfold round4. apply Rmult_le_compat_r; [lra|]. apply IZR_le. apply Zrnd_le; [apply valid_rnd_N|]. lra.
Qed.
Lemma round4_0 : round4 0 = 0.
Proof. unfold round4. rewrite Rmult_0_l. replace 0 with (IZR 0) by reflexivity. rewrite Zrnd_IZR; [|apply valid_rnd_N]. field. Qed.
Lemma round4_1 : round4 1 = 1.
Proof. unfold round4. rewrite Rmult_1_l. rewrite Zrnd_IZR; [|apply valid_rnd_N]. field. Qed.
Lemma round4_close x : Rabs (round4 x - x) <= / 20000.
Proof.
  unfold round4. pose proof (Znearest_half (fun z => negb (Z.even z)) (x * 10000)) as H. 
  replace (IZR (ZnearestE (x * 10000)) / 10000 - x) with (- ((x * 10000 - IZR (ZnearestE (x * 10000))) * / 10000)) by field.
  rewrite Rabs_Ropp, Rabs_mult, (Rabs_right (/ 10000)) by lra. lra.
Qed.
Definition ratio (P Q : list point) (fd : R) : R := fd / (sqrt (arc_length P * arc_length Q) / sqrt 2).
Lemma similarity_eval frames P Q : compute_similarity frames P Q = res_map (fun fd => round4 (Rmax (1 - ratio P Q fd) 0)) (frdist frames P Q).
Proof. unfold compute_similarity, ratio. destruct (frdist frames P Q); reflexivity. Qed.
Lemma similarity_map frames f k P Q : 0 < k -> (forall a b, dist (f a) (f b) = k * dist a b) -> 0 < arc_length P -> 0 < arc_length Q ->
  compute_similarity frames (map f P) (map f Q) = compute_similarity frames P Q.
Proof.
  intros Hk Hf LP LQ. rewrite !similarity_eval, (frdist_map frames f k) by (auto; lra). destruct (frdist frames P Q) as [v|]; [|reflexivity]. cbn [res_map].
  do 2 f_equal. f_equal. f_equal. unfold ratio. rewrite !(arc_map f k) by exact Hf.
  replace (k * arc_length P * (k * arc_length Q)) with (k² * (arc_length P * arc_length Q)) by (unfold Rsqr; ring).
  rewrite sqrt_mult; [|apply Rle_0_sqr|apply Rmult_le_pos; lra]. rewrite sqrt_Rsqr by lra.
  assert (0 < sqrt (arc_length P * arc_length Q)) by (apply sqrt_lt_R0, Rmult_lt_0_compat; assumption). assert (0 < sqrt 2) by (apply sqrt_lt_R0; lra).
  field. repeat split; lra.
Qed.
Lemma ratio_nonneg P Q fd : 0 < arc_length P -> 0 < arc_length Q -> 0 <= fd -> 0 <= ratio P Q fd.
Proof.
  intros LP LQ H. unfold ratio. assert (0 < sqrt (arc_length P * arc_length Q)) by (apply sqrt_lt_R0, Rmult_lt_0_compat; assumption).
  assert (0 < sqrt 2) by (apply sqrt_lt_R0; lra). apply Rmult_le_pos; [exact H|]. left. apply Rinv_0_lt_compat. apply Rdiv_lt_0_compat; assumption.
Qed.

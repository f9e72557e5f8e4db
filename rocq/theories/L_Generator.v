From Coq Require Import Reals Lra Lia.
From Verif Require Import M_Base M_Gauss M_Generator S_Generator.
Open Scope R_scope.

(** *** positions *)
Lemma dist_sym p q : dist p q = dist q p. Proof. unfold dist. f_equal. ring. Qed.
Lemma dist_self p : dist p p = 0. Proof. unfold dist. replace ((fst p - fst p) ^ 2 + (snd p - snd p) ^ 2) with 0 by ring. apply sqrt_0. Qed.
Lemma zero_true d : zero d = true <-> d = 0. Proof. unfold zero. destruct (Req_EM_T d 0); split; intro; congruence. Qed.
Lemma zero_false d : zero d = false <-> d <> 0. Proof. unfold zero. destruct (Req_EM_T d 0); split; intro; congruence. Qed.
Lemma below_false d t : below d t = false <-> t <= d. Proof. unfold below. destruct (Rlt_dec d t); split; intro; try congruence; lra. Qed.
Lemma existsb_false {A} (f : A -> bool) l : existsb f l = false <-> forall x, In x l -> f x = false.
Proof.
  induction l as [|y l IH]; cbn [existsb]; [split; [intros _ x []|reflexivity]|]. rewrite orb_false_iff, IH. split.
  - intros [A1 A2] x [<-|H]; auto.
  - intro H. split; [apply H; left; reflexivity|]. intros x Hx. apply H. right. exact Hx.
Qed.
Lemma set_nth_length {A} i (v : A) l : length (set_nth i v l) = length l.
Proof. revert i. induction l as [|x l IH]; intros [|i]; cbn; auto. Qed.
Lemma set_nth_twice {A} i (v w : A) l : set_nth i v (set_nth i w l) = set_nth i v l.
Proof. revert i. induction l as [|x l IH]; intros [|i]; cbn; [reflexivity..|]. rewrite IH. reflexivity. Qed.
Lemma set_nth_same {A} i (v : A) l : (i < length l)%nat -> nth_error (set_nth i v l) i = Some v.
Proof. revert i. induction l as [|x l IH]; intros [|i] H; cbn in *; [lia|lia|reflexivity|]. apply IH. lia. Qed.
Lemma set_nth_other {A} i j (v : A) l : i <> j -> nth_error (set_nth i v l) j = nth_error l j.
Proof. revert i j. induction l as [|x l IH]; intros [|i] [|j] H; cbn; try reflexivity; [congruence|]. apply IH. congruence. Qed.
Lemma set_nth_in {A} i (v : A) l x : In x (set_nth i v l) -> x = v \/ In x l.
Proof. revert i. induction l as [|y l IH]; intros [|i] H; cbn in *; [tauto..|destruct H as [<-|H]; auto|]. destruct H as [<-|H]; [auto|]. destruct (IH i H); auto. Qed.
Lemma two_hits {A} (f : A -> bool) l : forall i j x y, i <> j -> nth_error l i = Some x -> nth_error l j = Some y -> f x = true -> f y = true -> (2 <= length (filter f l))%nat.
Proof.
  assert (one : forall m j y, nth_error m j = Some y -> f y = true -> (1 <= length (filter f m))%nat).
  { induction m as [|z m IH]; intros [|j] y H Hy; cbn in H; try discriminate.
    - injection H as ->. cbn. rewrite Hy. cbn. lia.
    - cbn. specialize (IH j y H Hy). destruct (f z); cbn; lia. }
  induction l as [|z l IH]; intros [|i] [|j] x y N Hx Hy Fx Fy; cbn in Hx, Hy; try discriminate; [congruence|..].
  - injection Hx as ->. cbn. rewrite Fx. cbn. pose proof (one l j y Hy Fy). lia.
  - injection Hy as ->. cbn. rewrite Fy. cbn. pose proof (one l i x Hx Fx). lia.
  - cbn. assert (i <> j) by congruence. pose proof (IH i j x y H Hx Hy Fx Fy). destruct (f z); cbn; lia.
Qed.
Section Pos.
Variable draw : nat -> nat -> nat.
Variables xlen ylen : nat.
Variables xs ys : nat -> R.
Variables a b away : R.
Local Notation place := (place xs ys).
Local Notation crowded_first := (crowded_first xs ys a b away).
Local Notation crowded := (crowded xs ys a b away).
Local Notation reposition := (reposition draw xlen ylen xs ys a b away).
Definition ok_dist (d : R) : Prop := (d = 0 /\ away * b <= away * a) \/ (away * a <= d /\ away * b <= d).
Definition pair_ok (locs : list (nat * nat)) (i j : nat) : Prop :=
  forall p q, nth_error locs i = Some p -> nth_error locs j = Some q -> ok_dist (dist (place p) (place q)).
Lemma crowded_first_ok locs p q : crowded_first locs p = false -> In q locs -> ok_dist (dist (place p) (place q)).
Proof.
  unfold M_Generator.crowded_first. rewrite orb_false_iff, !existsb_false. intros [A B] H. set (d := dist (place p) (place q)).
  assert (I : In (if zero d then away * a else d) (map (fun d => if zero d then away * a else d) (distances xs ys locs p))) by (apply (in_map (fun d => if zero d then away * a else d)); apply in_map_iff; exists q; auto).
  specialize (A _ I). specialize (B _ I). rewrite below_false in A, B. unfold ok_dist. destruct (zero d) eqn:E; [left; apply zero_true in E; auto|right; auto].
Qed.
Lemma crowded_ok locs p i j q : crowded locs p = false -> nth_error locs i = Some p -> nth_error locs j = Some q -> i <> j -> ok_dist (dist (place p) (place q)).
Proof.
  unfold M_Generator.crowded. intros H Hi Hj N. set (d := dist (place p) (place q)). assert (I : In d (distances xs ys locs p)) by (apply in_map_iff; exists q; split; [reflexivity|apply (nth_error_In _ _ Hj)]).
  destruct (Nat.leb_spec (length (filter zero (distances xs ys locs p))) 1) as [L|L]; rewrite orb_false_iff, !existsb_false in H; destruct H as [A B].
  - assert (Z : zero d = false).
    { destruct (zero d) eqn:E; [|reflexivity]. exfalso. assert (2 <= length (filter zero (distances xs ys locs p)))%nat; [|lia].
      apply (two_hits zero (distances xs ys locs p) i j (dist (place p) (place p)) d N).
      - unfold distances. exact (map_nth_error (fun q0 => dist (place p) (place q0)) i locs Hi).
      - unfold distances. exact (map_nth_error (fun q0 => dist (place p) (place q0)) j locs Hj).
      - apply zero_true, dist_self.
      - exact E. }
    assert (J : In d (filter (fun d => negb (zero d)) (distances xs ys locs p))) by (apply filter_In; rewrite Z; auto). specialize (A _ J). specialize (B _ J). rewrite below_false in A, B. right. auto.
  - assert (J : In (if zero d then away * a else d) (map (fun d => if zero d then away * a else d) (distances xs ys locs p))) by (apply (in_map (fun d => if zero d then away * a else d)), I).
    specialize (A _ J). specialize (B _ J). rewrite below_false in A, B. unfold ok_dist. destruct (zero d) eqn:E; [left; apply zero_true in E; auto|right; auto].
Qed.
Lemma reposition_ok fuel : forall count checker locs k i locs' k', reposition fuel count checker locs k i = Ok (locs', k') ->
  (checker = false /\ locs' = locs /\ k' = k) \/ (exists k0, let p := (draw k0 xlen, draw (S k0) ylen) in locs' = set_nth i p locs /\ crowded locs' p = false).
Proof.
  induction fuel as [|f IH]; intros count checker locs k i locs' k' H; cbn [M_Generator.reposition] in H; destruct (checker || (10000 <=? count)%Z)%bool eqn:E; try discriminate.
  - injection H as <- <-. left. destruct checker; [discriminate|auto].
  - right. apply IH in H as [[C [-> ->]]|[k0 [-> C]]]; [exists k; auto|]. exists k0. cbn zeta. rewrite set_nth_twice in *. auto.
  - injection H as <- <-. left. destruct checker; [discriminate|auto].
Qed.
Lemma pair_sym locs i j : pair_ok locs i j -> pair_ok locs j i.
Proof. intros H p q Hp Hq. rewrite dist_sym. exact (H q p Hq Hp). Qed.
Lemma check_from_ok fuel loc todo : forall i locs k locs' k', (i + todo = length locs)%nat -> (forall m j, (m < i)%nat -> (j < length locs)%nat -> j <> m -> pair_ok locs m j) ->
  check_from draw xlen ylen xs ys a b away fuel loc i todo locs k = Ok (locs', k') ->
  length locs' = length locs /\ (forall m j, (m < length locs)%nat -> (j < length locs)%nat -> j <> m -> pair_ok locs' m j) /\
  (0 < xlen -> 0 < ylen -> fair draw -> on_grid xlen ylen locs -> on_grid xlen ylen locs')%nat.
Proof.
  induction todo as [|n IH]; intros i locs k locs' k' Hn Inv H; cbn [check_from] in H.
  - injection H as <- <-. split; [reflexivity|]. split; [|auto]. intros m j Hm Hj. apply Inv; [lia|exact Hj].
  - destruct (nth_error locs i) as [p|] eqn:Ep; [|discriminate]. destruct (reposition fuel 0 (crowded_first locs p || loc)%bool locs k i) as [[l1 k1]|e] eqn:R; [|discriminate]. cbn [bind fst snd] in H.
    assert (Hi : (i < length locs)%nat) by lia.
    assert (S : length l1 = length locs /\ (forall m j, (m < Datatypes.S i)%nat -> (j < length locs)%nat -> j <> m -> pair_ok l1 m j) /\ (0 < xlen -> 0 < ylen -> fair draw -> on_grid xlen ylen locs -> on_grid xlen ylen l1)%nat).
    { apply reposition_ok in R as [[C [-> ->]]|[k0 [-> C]]].
      - split; [reflexivity|]. split; [|auto]. apply orb_false_iff in C as [C _]. intros m j Hm Hj N. destruct (Nat.eq_dec m i) as [->|M]; [|apply Inv; [lia|exact Hj|exact N]].
        intros p' q Hp Hq. assert (p' = p) as -> by congruence. apply (crowded_first_ok locs p q C). exact (nth_error_In _ _ Hq).
      - set (p1 := (draw k0 xlen, draw (Datatypes.S k0) ylen)) in *. rewrite set_nth_length. split; [reflexivity|]. split.
        + assert (One : forall j, (j < length locs)%nat -> j <> i -> pair_ok (set_nth i p1 locs) i j).
          { intros j Hj N p' q Hp Hq. rewrite set_nth_same in Hp by exact Hi. assert (p' = p1) as -> by congruence. apply (crowded_ok (set_nth i p1 locs) p1 i j q C); [apply set_nth_same, Hi|exact Hq|congruence]. }
          intros m j Hm Hj N. destruct (Nat.eq_dec m i) as [->|M]; [apply One; assumption|]. destruct (Nat.eq_dec j i) as [->|J]; [apply pair_sym, One; [lia|congruence]|].
          intros p' q Hp Hq. rewrite set_nth_other in Hp, Hq by congruence. exact (Inv m j ltac:(lia) Hj N p' q Hp Hq).
        + intros X Y F G p' Hp. apply set_nth_in in Hp as [->|Hp]; [cbn; split; apply F; assumption|exact (G p' Hp)]. }
    destruct S as [L1 [S1 G1]]. apply IH in H; [|lia|intros m j Hm Hj; apply S1; [exact Hm|lia]]. destruct H as [L2 [S2 G2]]. split; [lia|]. split; [|auto]. intros m j Hm Hj. apply S2; lia.
Qed.
(** *** termination *)
Lemma stuck fuel : forall count checker locs k i, (10000 <= count)%Z -> reposition fuel count checker locs k i = Err OutOfFuel.
Proof. induction fuel as [|f IH]; intros count checker locs k i H; cbn [M_Generator.reposition]; rewrite (proj2 (Z.leb_le _ _) H), orb_true_r; [reflexivity|]. apply IH. lia. Qed.
Definition attempt (k j : nat) : nat * nat := (draw (k + 2 * j)%nat xlen, draw (S (k + 2 * j))%nat ylen).
Definition free (locs : list (nat * nat)) (k i j : nat) : Prop := crowded (set_nth i (attempt k j) locs) (attempt k j) = false.
Lemma free_shift locs k i j p : free (set_nth i p locs) (S (S k)) i j <-> free locs k i (S j).
Proof. unfold free, attempt. rewrite set_nth_twice. replace (S (S k) + 2 * j)%nat with (k + 2 * S j)%nat by lia. reflexivity. Qed.
Lemma ends_free fuel : forall count locs k i r, (0 <= count)%Z -> reposition fuel count true locs k i = Ok r -> exists j, (count + Z.of_nat j + 1 < 10000)%Z /\ free locs k i j.
Proof.
  induction fuel as [|f IH]; intros count locs k i r Hc H; cbn [M_Generator.reposition orb] in H; [discriminate|]. set (p := (draw k xlen, draw (S k) ylen)) in *.
  assert (P : p = attempt k 0) by (unfold attempt, p; rewrite Nat.mul_0_r, Nat.add_0_r; reflexivity). destruct (crowded (set_nth i p locs) p) eqn:C.
  - apply IH in H as [j [Hj Fj]]; [|lia]. exists (S j). split; [lia|]. apply free_shift in Fj. exact Fj.
  - exists 0%nat. split; [|unfold free; rewrite <- P; exact C]. destruct (Z_lt_le_dec (count + 1) 10000) as [L|L]; [lia|]. rewrite stuck in H by exact L. discriminate.
Qed.
Lemma free_ends j : forall count locs k i, (0 <= count)%Z -> (count + Z.of_nat j + 1 < 10000)%Z -> free locs k i j -> exists fuel r, reposition fuel count true locs k i = Ok r.
Proof.
  induction j as [|j IH]; intros count locs k i Hc Hj F; set (p := (draw k xlen, draw (S k) ylen)); assert (P : p = attempt k 0) by (unfold attempt, p; rewrite Nat.mul_0_r, Nat.add_0_r; reflexivity).
  - exists 1%nat. unfold free in F. rewrite <- P in F. cbn [M_Generator.reposition orb]. fold p. rewrite F, (proj2 (Z.leb_gt _ _)) by lia. cbn [orb]. eexists. reflexivity.
  - destruct (crowded (set_nth i p locs) p) eqn:C.
    + destruct (IH (count + 1)%Z (set_nth i p locs) (S (S k)) i ltac:(lia) ltac:(lia)) as [fuel [r E]]; [apply free_shift; exact F|]. exists (S fuel), r. cbn [M_Generator.reposition orb]. fold p. rewrite C. exact E.
    + exists 1%nat. cbn [M_Generator.reposition orb]. fold p. rewrite C, (proj2 (Z.leb_gt _ _)) by lia. cbn [orb]. eexists. reflexivity.
Qed.
End Pos.

(** *** axes *)
Lemma least_first x l : (forall y, In y l -> x <= y) -> least x l = x.
Proof. unfold least. induction l as [|y l IH]; intro H; [reflexivity|]. cbn [fold_left]. rewrite Rmin_left by (apply H; left; reflexivity). apply IH. intros z Hz. apply H. right. exact Hz. Qed.
Lemma least_le l : forall x, least x l <= x /\ (forall y, In y l -> least x l <= y).
Proof.
  unfold least. induction l as [|y l IH]; intro x; cbn [fold_left]; [split; [lra|intros z []]|]. destruct (IH (Rmin x y)) as [A B]. pose proof (Rmin_l x y). pose proof (Rmin_r x y). split; [lra|]. intros z [<-|Hz]; [lra|auto].
Qed.
Lemma greatest_ge l : forall x, x <= greatest x l /\ (forall y, In y l -> y <= greatest x l).
Proof.
  unfold greatest. induction l as [|y l IH]; intro x; cbn [fold_left]; [split; [lra|intros z []]|]. destruct (IH (Rmax x y)) as [A B]. pose proof (Rmax_l x y). pose proof (Rmax_r x y). split; [lra|]. intros z [<-|Hz]; [lra|auto].
Qed.
Lemma greatest_in l : forall x, greatest x l = x \/ In (greatest x l) l.
Proof.
  unfold greatest. induction l as [|y l IH]; intro x; cbn [fold_left]; [auto|]. destruct (IH (Rmax x y)) as [E|E]; [|right; right; exact E]. rewrite E. unfold Rmax. destruct (Rle_dec x y); [right; left; reflexivity|auto].
Qed.
Lemma greatest_is m x l : In m (x :: l) -> (forall y, In y (x :: l) -> y <= m) -> greatest x l = m.
Proof.
  intros I H. apply Rle_antisym.
  - destruct (greatest_in l x) as [E|E]; [rewrite E; apply H; left; reflexivity|apply H; right; exact E].
  - destruct (greatest_ge l x) as [A B]. destruct I as [<-|I]; auto.
Qed.
Lemma linspace_length lo hi n : length (linspace lo hi n) = n. Proof. unfold linspace. rewrite map_length, seq_length. reflexivity. Qed.
Lemma seq_head n : (0 < n)%nat -> seq 0 n = 0%nat :: seq 1 (n - 1). Proof. destruct n; [lia|]. intros _. cbn. rewrite Nat.sub_0_r. reflexivity. Qed.
Lemma stretched_twice lo hi n : lo <= hi -> (0 < n)%nat -> stretched (linspace lo hi n) n = Ok (linspace lo hi n).
Proof.
  intros H P. set (f := fun k => if Nat.eqb n 1 then lo else lo + INR k * ((hi - lo) / INR (n - 1))). assert (E : linspace lo hi n = lo :: map f (seq 1 (n - 1))).
  { unfold linspace. rewrite seq_head by exact P. cbn [map]. f_equal. destruct (Nat.eqb n 1); [reflexivity|]. cbn [INR]. ring. }
  rewrite E at 1. cbn [stretched]. assert (G : forall k, lo <= f k).
  { intro k. unfold f. destruct (Nat.eqb_spec n 1); [lra|]. assert (0 < INR (n - 1)) by (apply lt_0_INR; lia). assert (0 <= (hi - lo) / INR (n - 1)) by (apply Rmult_le_pos; [lra|apply Rlt_le, Rinv_0_lt_compat; assumption]). pose proof (pos_INR k). nra. }
  rewrite (least_first lo (map f (seq 1 (n - 1)))) by (intros y Hy; apply in_map_iff in Hy as [k [<- _]]; apply G). destruct (Nat.eq_dec n 1) as [->|N].
  - cbn. do 2 f_equal.
  - rewrite (greatest_is hi lo (map f (seq 1 (n - 1)))); [reflexivity|..].
    + right. apply in_map_iff. exists (n - 1)%nat. split; [|apply in_seq; lia]. unfold f. rewrite (proj2 (Nat.eqb_neq n 1) N). field. apply not_0_INR. lia.
    + intros y [<-|Hy]; [exact H|]. apply in_map_iff in Hy as [k [<- Hk]]. apply in_seq in Hk. unfold f. rewrite (proj2 (Nat.eqb_neq n 1) N). assert (0 < INR (n - 1)) by (apply lt_0_INR; lia).
      assert (K : INR k <= INR (n - 1)) by (apply le_INR; lia). assert (0 <= (hi - lo) / INR (n - 1)) by (apply Rmult_le_pos; [lra|apply Rlt_le, Rinv_0_lt_compat; assumption]).
      assert (INR (n - 1) * ((hi - lo) / INR (n - 1)) = hi - lo) by (field; lra). nra.
Qed.
Lemma stretched_some l n : l <> [] -> (0 < n)%nat -> exists l', stretched l n = Ok l' /\ length l' = n /\ stretched l' n = Ok l'.
Proof.
  destruct l as [|x l]; [congruence|]. intros _ P. cbn [stretched]. eexists. split; [reflexivity|]. split; [apply linspace_length|]. apply stretched_twice; [|exact P]. pose proof (proj1 (least_le l x)). pose proof (proj1 (greatest_ge l x)). lra.
Qed.

(** *** layout *)
Lemma nth_error_firstn {A} n (l : list A) i : nth_error (firstn n l) i = if Nat.ltb i n then nth_error l i else None.
Proof. revert l i. induction n as [|n IH]; intros l i; [destruct i; reflexivity|]. destruct l as [|x l]; [cbn [firstn]; destruct (Nat.ltb i (S n)); destruct i; reflexivity|]. destruct i as [|i]; [reflexivity|]. cbn [firstn nth_error]. rewrite IH. reflexivity. Qed.
Lemma nth_error_skipn {A} n (l : list A) i : nth_error (skipn n l) i = nth_error l (n + i).
Proof. revert l. induction n as [|n IH]; intro l; [reflexivity|]. destruct l as [|x l]; [destruct i; reflexivity|]. cbn. apply IH. Qed.
Lemma reshape_entry flat rows columns d i j : reshape flat rows columns = Ok d -> (i < rows)%nat -> (j < columns)%nat -> entry2 d i j = nth_error flat (i * columns + j).
Proof.
  intros H Hi Hj. unfold reshape in H. destruct (Nat.eqb_spec (length flat) (rows * columns)) as [L|L]; [|discriminate]. injection H as <-. unfold entry2.
  rewrite (map_nth_error (fun i0 => firstn columns (skipn (i0 * columns) flat)) i (seq 0 rows) (d := i)).
  - rewrite nth_error_firstn, (proj2 (Nat.ltb_lt j columns) Hj), nth_error_skipn. reflexivity.
  - rewrite (nth_error_nth' _ 0%nat) by (rewrite seq_length; exact Hi). rewrite seq_nth by exact Hi. reflexivity.
Qed.
Lemma mesh_length e c x y : length (mesh_values e c x y) = (length y * length x)%nat.
Proof. unfold mesh_values. induction y as [|v y IH]; [reflexivity|]. cbn [flat_map]. rewrite app_length, map_length, IH. cbn. lia. Qed.
Lemma mesh_entry e c x y r s u v : nth_error x s = Some u -> nth_error y r = Some v ->
  nth_error (mesh_values e c x y) (r * length x + s) = Some (twoD_Gaussian_at (e_amp e) (fst c) (snd c) (e_ra e) (e_rb e) (e_angle e) u v).
Proof.
  intro Hs. assert (L : (s < length x)%nat) by (apply nth_error_Some; congruence). unfold mesh_values. revert r. induction y as [|w y IH]; intros [|r] Hr; cbn in Hr; try discriminate.
  - injection Hr as ->. cbn [flat_map Nat.mul Nat.add]. rewrite nth_error_app1 by (rewrite map_length; exact L). exact (map_nth_error _ s x Hs).
  - cbn [flat_map]. rewrite nth_error_app2 by (rewrite map_length; cbn; lia). rewrite map_length. replace (S r * length x + s - length x)%nat with (r * length x + s)%nat by (cbn; lia). apply IH, Hr.
Qed.
Lemma add_rows_entry u v j : forall s t, nth_error u j = Some s -> nth_error v j = Some t -> nth_error (add_rows u v) j = Some (s + t).
Proof. revert u v. induction j as [|j IH]; intros [|x u] [|y v] s t Hs Ht; cbn in *; try discriminate; [congruence|]. apply IH; assumption. Qed.
Lemma add_arrays_entry u v i j s t : entry2 u i j = Some s -> entry2 v i j = Some t -> entry2 (add_arrays u v) i j = Some (s + t).
Proof.
  unfold entry2. revert u v. induction i as [|i IH]; intros [|x u] [|y v] Hs Ht; cbn in *; try discriminate; [apply add_rows_entry; assumption|]. apply IH; assumption.
Qed.
Lemma zeros_entry rows columns i j : (i < rows)%nat -> (j < columns)%nat -> entry2 (zeros rows columns) i j = Some 0.
Proof.
  intros Hi Hj. unfold entry2, zeros. assert (R : forall A (x : A) n m, (m < n)%nat -> nth_error (repeat x n) m = Some x) by (intros A x n; induction n as [|n IH]; intros [|m] H; cbn; [lia|lia|reflexivity|apply IH; lia]).
  rewrite R by exact Hi. apply R, Hj.
Qed.
(** Coordinates of the value stored at (i, j) of an array with [columns] columns, filled from a mesh with [width] points a row. *)
Definition source (width columns i j : nat) : nat * nat := ((i * columns + j) mod width, (i * columns + j) / width)%nat.
Definition keeps (g g' : gen) : Prop := g_xlen g' = g_xlen g /\ g_ylen g' = g_ylen g /\ g_opt g' = g_opt g /\ g_eddies g' = g_eddies g /\ g_a g' = g_a g /\ g_b g' = g_b g.
Lemma pass_args_ok draw e margin g k x y : stretched (g_x g) (g_xlen g + 2 * margin) = Ok x -> stretched (g_y g) (g_ylen g + 2 * margin) = Ok y ->
  forall g' k' c, pass_args draw e margin g k = Ok (g', k', c) -> g_x g' = x /\ g_y g' = y /\ keeps g g' /\ node x y c /\
  (random_places (g_opt g) = false -> k' = k /\ centred_at x y margin e c).
Proof.
  intros Ex Ey g' k' c H. unfold pass_args in H. rewrite Ex, Ey in H. cbn [bind] in H. destruct (random_places (g_opt g)) eqn:O.
  - destruct (nth_error x _) as [xc|] eqn:Cx; [|discriminate]. destruct (nth_error y _) as [yc|] eqn:Cy; [|discriminate]. injection H as <- <- <-. cbn. unfold keeps, node. cbn. apply nth_error_In in Cx, Cy. repeat split; trivial. all: discriminate.
  - destruct (nth_error x (e_ix e + margin)) as [xc|] eqn:Cx; [|discriminate]. destruct (nth_error y (e_iy e + margin)) as [yc|] eqn:Cy; [|discriminate]. injection H as <- <- <-. unfold keeps, centred_at, node. cbn. pose proof (nth_error_In _ _ Cx). pose proof (nth_error_In _ _ Cy). auto 12.
Qed.
Lemma add_eddies_ok draw margin rows columns x y es : forall data g k d g' k',
  stretched (g_x g) (g_xlen g + 2 * margin) = Ok x -> stretched (g_y g) (g_ylen g + 2 * margin) = Ok y -> stretched x (g_xlen g + 2 * margin) = Ok x -> stretched y (g_ylen g + 2 * margin) = Ok y ->
  add_eddies draw margin rows columns es data g k = Ok (d, g', k') ->
  keeps g g' /\ stretched (g_x g') (g_xlen g + 2 * margin) = Ok x /\ stretched (g_y g') (g_ylen g + 2 * margin) = Ok y /\ (es <> [] \/ (g_x g = x /\ g_y g = y) -> g_x g' = x /\ g_y g' = y) /\
  exists cs, length cs = length es /\ Forall (node x y) cs /\ (random_places (g_opt g) = false -> Forall2 (centred_at x y margin) es cs) /\
    (es <> [] -> (rows * columns = length x * length y)%nat) /\
    forall i j v, (i < rows)%nat -> (j < columns)%nat -> entry2 data i j = Some v ->
      forall ux uy, (es <> [] -> nth_error x (fst (source (length x) columns i j)) = Some ux /\ nth_error y (snd (source (length x) columns i j)) = Some uy) ->
      entry2 d i j = Some (v + field_at es cs ux uy).
Proof.
  induction es as [|e es IH]; intros data g k d g' k' Ex Ey Fx Fy H; cbn [add_eddies] in H.
  - injection H as <- <- <-. split; [unfold keeps; auto 10|]. split; [exact Ex|]. split; [exact Ey|]. split; [intros [X|X]; [congruence|exact X]|]. exists []. split; [reflexivity|]. split; [constructor|]. split; [intros _; constructor|]. split; [congruence|].
    intros i j v _ _ E ux uy _. rewrite E. unfold field_at. cbn. f_equal. ring.
  - destruct (pass_args draw e margin g k) as [[[g1 k1] c]|?] eqn:P; [|discriminate]. cbn [bind] in H. destruct (pass_args_ok draw e margin g k x y Ex Ey g1 k1 c P) as [Gx [Gy [K [Nd C]]]].
    rewrite Gx, Gy in H. destruct (reshape (mesh_values e c x y) rows columns) as [v1|?] eqn:R; [|discriminate]. cbn [bind] in H. destruct K as [K1 [K2 [K3 [K4 [K5 K6]]]]].
    assert (Sz : (rows * columns = length x * length y)%nat).
    { unfold reshape in R. rewrite mesh_length in R. destruct (Nat.eqb_spec (length y * length x) (rows * columns)); [|discriminate]. lia. }
    apply IH in H; [|rewrite ?K1, ?K2, ?Gx, ?Gy; assumption..]. rewrite K1, K2, K3 in H. destruct H as [[J1 [J2 [J3 [J4 [J5 J6]]]]] [Sx [Sy [A [cs [L [N [F [_ V]]]]]]]]].
    split; [unfold keeps; repeat split; congruence|]. split; [exact Sx|]. split; [exact Sy|]. split; [intros _; apply A; right; auto|].
    exists (c :: cs). split; [cbn; congruence|]. split; [constructor; assumption|]. split; [intro O; constructor; [apply C, O|apply F; congruence]|]. split; [intros _; exact Sz|].
    intros i j v Hi Hj E ux uy U. destruct (U ltac:(discriminate)) as [Ux Uy]. unfold source in Ux, Uy. cbn [fst snd] in Ux, Uy. set (f := (i * columns + j)%nat) in *.
    assert (V1 : entry2 v1 i j = Some (twoD_Gaussian_at (e_amp e) (fst c) (snd c) (e_ra e) (e_rb e) (e_angle e) ux uy)).
    { rewrite (reshape_entry _ _ _ _ i j R Hi Hj). rewrite <- (mesh_entry e c x y _ _ _ _ Ux Uy). f_equal. fold f. rewrite (Nat.mul_comm (f / length x)). apply Nat.div_mod_eq. }
    rewrite (V i j _ Hi Hj (add_arrays_entry _ _ i j _ _ E V1) ux uy) by (intros _; auto). f_equal. unfold field_at. unfold Rsum. cbn [combine map fst snd fold_right]. ring.
Qed.

Lemma add_eddies_total draw margin x y es : forall data g k,
  stretched (g_x g) (g_xlen g + 2 * margin) = Ok x -> stretched (g_y g) (g_ylen g + 2 * margin) = Ok y -> stretched x (g_xlen g + 2 * margin) = Ok x -> stretched y (g_ylen g + 2 * margin) = Ok y ->
  length x = (g_xlen g + 2 * margin)%nat -> length y = (g_ylen g + 2 * margin)%nat -> random_places (g_opt g) = false -> (forall e, In e es -> (e_ix e < g_xlen g /\ e_iy e < g_ylen g)%nat) ->
  exists d g' k', add_eddies draw margin (g_xlen g + 2 * margin) (g_ylen g + 2 * margin) es data g k = Ok (d, g', k').
Proof.
  induction es as [|e es IH]; intros data g k Ex Ey Fx Fy Lx Ly O B; cbn [add_eddies]; [eauto|].
  destruct (B e ltac:(left; reflexivity)) as [Bx By]. unfold pass_args at 1. rewrite Ex, Ey, O. cbn [bind].
  destruct (nth_error x (e_ix e + margin)) as [xc|] eqn:Cx; [|apply nth_error_None in Cx; lia]. destruct (nth_error y (e_iy e + margin)) as [yc|] eqn:Cy; [|apply nth_error_None in Cy; lia]. cbn [bind g_x g_y].
  unfold reshape at 1. rewrite mesh_length, Lx, Ly, (Nat.mul_comm (g_ylen g + _)), Nat.eqb_refl. cbn [bind].
  apply (IH _ (mkGen x y (g_xlen g) (g_ylen g) (g_a g) (g_b g) (g_opt g) (g_eddies g)) k); cbn; auto. intros e' He. apply B. right. exact He.
Qed.
Lemma centred_unique x y margin es : forall cs cs', Forall2 (centred_at x y margin) es cs -> Forall2 (centred_at x y margin) es cs' -> cs = cs'.
Proof.
  induction es as [|e es IH]; intros cs cs' H H'; inversion H; inversion H'; subst; [reflexivity|]. f_equal; [|apply IH; assumption].
  match goal with A : centred_at _ _ _ _ ?c, B : centred_at _ _ _ _ ?c' |- ?c = ?c' => destruct A as [A1 A2], B as [B1 B2]; destruct c, c'; cbn in *; congruence end.
Qed.
(** What of an eddy the field depends on, the position aside. *)
Definition shape (e : geddy) : R * R * R * R := (e_ra e, e_rb e, e_angle e, e_amp e).
Lemma field_shape es : forall es' cs x y, map shape es = map shape es' -> field_at es cs x y = field_at es' cs x y.
Proof.
  unfold field_at. induction es as [|e es IH]; intros [|e' es'] cs x y H; try discriminate; [reflexivity|]. cbn [map] in H. assert (H1 : shape e = shape e') by congruence. assert (H2 : map shape es = map shape es') by congruence.
  destruct cs as [|c cs]; [reflexivity|]. cbn [combine map]. unfold Rsum in *. cbn [fold_right fst snd]. rewrite (IH es' cs x y H2). f_equal. unfold shape in H1. injection H1 as -> -> -> ->. reflexivity.
Qed.
Lemma place_shape es : forall locs, length locs = length es -> map shape (place_eddies es locs) = map shape es.
Proof. unfold place_eddies. induction es as [|e es IH]; intros [|l locs] H; try discriminate; [reflexivity|]. cbn [combine map]. injection H as H. rewrite IH by exact H. reflexivity. Qed.
Definition is_field (X Y : nat) (x y : list R) (es : list geddy) (cs : list (R * R)) (d : list (list R)) : Prop :=
  forall i j, (i < X)%nat -> (j < Y)%nat -> forall ux uy, nth_error x (fst (source X Y i j)) = Some ux -> nth_error y (snd (source X Y i j)) = Some uy -> entry2 d i j = Some (field_at es cs ux uy).
Lemma assemble_ok draw fuel margin x y N : forall g k data g',
  stretched (g_x g) (g_xlen g + 2 * margin) = Ok x -> stretched (g_y g) (g_ylen g + 2 * margin) = Ok y -> stretched x (g_xlen g + 2 * margin) = Ok x -> stretched y (g_ylen g + 2 * margin) = Ok y ->
  length x = (g_xlen g + 2 * margin)%nat -> length y = (g_ylen g + 2 * margin)%nat ->
  assemble_from draw fuel N margin g k = Ok (data, g') ->
  length data = N /\ (g_eddies g <> [] -> (0 < N)%nat \/ (g_x g = x /\ g_y g = y) -> g_x g' = x /\ g_y g' = y) /\
  Forall (fun d => exists cs, length cs = length (g_eddies g) /\ Forall (node x y) cs /\
    (random_places (g_opt g) = false -> kept_apart (g_opt g) = false -> Forall2 (centred_at x y margin) (g_eddies g) cs) /\
    is_field (g_xlen g + 2 * margin) (g_ylen g + 2 * margin) x y (g_eddies g) cs d) data.
Proof.
  induction N as [|N IH]; intros g k data g' Ex Ey Fx Fy Lx Ly H; cbn [assemble_from] in H.
  - injection H as <- <-. split; [reflexivity|]. split; [intros _ [X|X]; [lia|exact X]|constructor].
  - match type of H with bind ?r _ = _ => destruct r as [[g1 k1]|?] eqn:R; [|discriminate] end. cbn [bind] in H.
    assert (G : g_x g1 = g_x g /\ g_y g1 = g_y g /\ g_xlen g1 = g_xlen g /\ g_ylen g1 = g_ylen g /\ g_opt g1 = g_opt g /\ map shape (g_eddies g1) = map shape (g_eddies g) /\ (kept_apart (g_opt g) = false -> g_eddies g1 = g_eddies g)).
    { destruct (kept_apart (g_opt g)) eqn:O.
      - match type of R with bind ?r _ = _ => destruct r as [[l1 k2]|?] eqn:C; [|discriminate] end. cbn [bind fst snd] in R. injection R as <- <-. cbn. repeat split; [|discriminate]. apply place_shape.
        unfold checkposition in C. apply check_from_ok in C; [|reflexivity|intros m j Hm; lia]. destruct C as [C _]. rewrite C, map_length. reflexivity.
      - injection R as <- <-. auto 10. }
    destruct G as [G1 [G2 [G3 [G4 [G5 [G6 G7]]]]]]. rewrite G3, G4 in H. clear R.
    match type of H with bind ?r _ = _ => destruct r as [[[d g2] k2]|?] eqn:A; [|discriminate] end. cbn [bind] in H.
    match type of H with bind ?r _ = _ => destruct r as [[data' g3]|?] eqn:Rest; [|discriminate] end. cbn [bind fst snd] in H. injection H as <- <-.
    assert (Len : length (g_eddies g1) = length (g_eddies g)) by (rewrite <- (map_length shape (g_eddies g1)), G6, map_length; reflexivity).
    assert (Ne : g_eddies g <> [] -> g_eddies g1 <> []) by (destruct (g_eddies g1), (g_eddies g); cbn in Len; congruence).
    destruct (add_eddies_ok draw margin (g_xlen g + 2 * margin) (g_ylen g + 2 * margin) x y (g_eddies g1) (zeros (g_xlen g + 2 * margin) (g_ylen g + 2 * margin)) g1 k1 d g2 k2) as [[K1 [K2 [K3 [K4 [_ _]]]]] [Sx [Sy [Ax [cs [L [Nd [F [_ V]]]]]]]]]; [rewrite ?G1, ?G2, ?G3, ?G4; assumption..|].
    rewrite ?G3, ?G4, ?G5 in *.
    apply IH in Rest; [|rewrite ?K1, ?K2; assumption..]. destruct Rest as [L' [A' F']]. rewrite K4 in A'.
    split; [cbn; congruence|]. split; [intros E _; apply A'; [apply Ne, E|]; right; apply Ax; left; apply Ne, E|].
    constructor.
    + exists cs. split; [congruence|]. split; [exact Nd|]. split; [intros O1 O2; rewrite <- (G7 O2); apply F, O1|].
      intros i j Hi Hj ux uy Ux Uy. rewrite (V i j 0 Hi Hj (zeros_entry _ _ i j Hi Hj) ux uy) by (intros _; rewrite Lx; auto). rewrite Rplus_0_l. f_equal. apply field_shape, G6.
    + rewrite K1, K2, K3, K4 in F'. eapply Forall_impl; [|exact F']. intros d' [cs' [L2 [N2 [P2 V2]]]]. exists cs'. split; [congruence|]. split; [exact N2|]. split; [intros O1 O2; rewrite <- (G7 O2); apply P2; assumption|].
      intros i j Hi Hj ux uy Ux Uy. rewrite (V2 i j Hi Hj ux uy Ux Uy). f_equal. apply field_shape, G6.
Qed.
Lemma assemble_total draw fuel margin x y N : forall g k,
  stretched (g_x g) (g_xlen g + 2 * margin) = Ok x -> stretched (g_y g) (g_ylen g + 2 * margin) = Ok y -> stretched x (g_xlen g + 2 * margin) = Ok x -> stretched y (g_ylen g + 2 * margin) = Ok y ->
  length x = (g_xlen g + 2 * margin)%nat -> length y = (g_ylen g + 2 * margin)%nat -> random_places (g_opt g) = false -> kept_apart (g_opt g) = false ->
  (forall e, In e (g_eddies g) -> (e_ix e < g_xlen g /\ e_iy e < g_ylen g)%nat) -> exists r, assemble_from draw fuel N margin g k = Ok r.
Proof.
  induction N as [|N IH]; intros g k Ex Ey Fx Fy Lx Ly O O' B; cbn [assemble_from]; [eauto|]. rewrite O'. cbn [bind].
  destruct (add_eddies_total draw margin x y (g_eddies g) (zeros (g_xlen g + 2 * margin) (g_ylen g + 2 * margin)) g k) as [d [g2 [k2 A]]]; try assumption. rewrite A. cbn [bind].
  destruct (add_eddies_ok _ _ _ _ x y _ _ _ _ _ _ _ Ex Ey Fx Fy A) as [[K1 [K2 [K3 [K4 _]]]] [Sx [Sy _]]].
  destruct (IH g2 k2) as [r E]; rewrite ?K1, ?K2, ?K3, ?K4; try assumption. rewrite E. cbn [bind]. eauto.
Qed.
(** *** free positions *)
Lemma few_hits {A} (f : A -> bool) i : forall l, (forall j x, j <> i -> nth_error l j = Some x -> f x = false) -> (length (filter f l) <= 1)%nat.
Proof.
  assert (none : forall m, (forall j x, nth_error m j = Some x -> f x = false) -> filter f m = []).
  { induction m as [|z m IH]; intro H; [reflexivity|]. cbn. rewrite (H 0%nat z eq_refl). apply IH. intros j x. exact (H (S j) x). }
  induction i as [|i IH]; intros [|z l] H; cbn; try lia.
  - rewrite none by (intros j x; exact (H (S j) x ltac:(lia))). destruct (f z); cbn; lia.
  - rewrite (H 0%nat z ltac:(lia) eq_refl). apply IH. intros j x N. apply (H (S j) x). lia.
Qed.
Lemma dist_distance xs ys p q : dist (place xs ys p) (place xs ys q) = distance_to xs ys p q.
Proof. unfold dist, distance_to, place. cbn [fst snd]. f_equal. ring. Qed.
Lemma free_iff draw xlen ylen xs ys a b away locs k i j : 0 < away -> 0 < a -> (i < length locs)%nat ->
  free draw xlen ylen xs ys a b away locs k i j <->
  (forall m q, m <> i -> nth_error locs m = Some q -> ok_dist a b away (distance_to xs ys (attempted draw xlen ylen k j) q)).
Proof.
  intros Hw Ha Hi. unfold free. change (attempt draw xlen ylen k j) with (attempted draw xlen ylen k j). set (p := attempted draw xlen ylen k j). set (l := set_nth i p locs). split.
  - intros C m q N Hm. rewrite <- dist_distance. apply (crowded_ok xs ys a b away l p i m q C); [apply set_nth_same, Hi|unfold l; rewrite set_nth_other by congruence; exact Hm|congruence].
  - intro H. assert (H' : forall m q, m <> i -> nth_error l m = Some q -> ok_dist a b away (dist (place xs ys p) (place xs ys q))).
    { intros m q N Hm. rewrite dist_distance. apply (H m q N). unfold l in Hm. rewrite set_nth_other in Hm by congruence. exact Hm. }
    clear H. assert (P : 0 < away * a) by nra. unfold crowded.
    assert (D : forall d, In d (distances xs ys l p) -> d <> 0 -> away * a <= d /\ away * b <= d).
    { intros d Hd Z. unfold distances in Hd. apply in_map_iff in Hd as [q [<- Hq]]. apply In_nth_error in Hq as [m Hm]. destruct (Nat.eq_dec m i) as [->|N].
      - unfold l in Hm. rewrite set_nth_same in Hm by exact Hi. injection Hm as <-. rewrite dist_self in Z. congruence.
      - destruct (H' m q N Hm) as [[E _]|F]; [congruence|exact F]. }
    destruct (Nat.leb_spec (length (filter zero (distances xs ys l p))) 1) as [L|L]; rewrite orb_false_iff, !existsb_false.
    + split; intros d Hd; apply filter_In in Hd as [Hd Z]; apply below_false; apply negb_true_iff, zero_false in Z; apply (D d Hd Z).
    + assert (B : away * b <= away * a).
      { destruct (Rle_dec (away * b) (away * a)) as [B|B]; [exact B|]. exfalso. assert (length (filter zero (distances xs ys l p)) <= 1)%nat; [|lia]. apply (few_hits zero i). intros m x N Hm.
        unfold distances in Hm. rewrite nth_error_map in Hm. destruct (nth_error l m) as [q|] eqn:E; [|discriminate]. cbn in Hm. injection Hm as <-. apply zero_false. destruct (H' m q N E) as [[_ F]|F]; lra. }
      split; intros d Hd; apply in_map_iff in Hd as [d' [<- Hd]]; apply below_false; destruct (zero d') eqn:Z; try lra; apply zero_false in Z; apply (D d' Hd Z).
Qed.
Lemma source_square n i j : (j < n)%nat -> source n n i j = (j, i).
Proof. intro H. unfold source. rewrite Nat.add_comm, Nat.mod_add, Nat.div_add by lia. rewrite Nat.mod_small, Nat.div_small by exact H. reflexivity. Qed.

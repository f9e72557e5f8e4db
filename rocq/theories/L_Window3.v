(** The window around the contour cells, and the mapping of vertices to grid cells. *)
From Coq Require Import Lia Lqa.
From Verif Require Import M_Base M_Detect S_Detect M_Window S_Window L_Base L_Detect L_Window L_Window2.
Open Scope Z_scope.

(** *** the window *)
Lemma clamp_max_ok fuel : forall tr shape, Z.max 0 (fst tr - fst shape) + Z.max 0 (snd tr - snd shape) <= Z.of_nat fuel ->
  clamp_max fuel tr shape = Ok (Z.min (fst tr) (fst shape), Z.min (snd tr) (snd shape)).
Proof.
  induction fuel as [|fuel IH]; intros [t1 t2] [s1 s2] H; cbn [fst snd] in *; cbn [clamp_max fst snd];
    destruct (Z.ltb_spec s1 t1), (Z.ltb_spec s2 t2); cbn [orb]; try lia; try (rewrite !Z.min_l by lia; reflexivity);
    destruct (Z.leb_spec (t2 - s2) (t1 - s1)); rewrite IH by (cbn [fst snd]; lia); cbn [fst snd]; do 2 f_equal; lia.
Qed.
Lemma clamp_min_ok bl : clamp_min 2 bl = Ok (Z.max (fst bl) 0, Z.max (snd bl) 0).
Proof.
  destruct bl as [a b].
  assert (C1 : forall f x y, 0 <= x -> 0 <= y -> clamp_min f (x, y) = Ok (x, y)).
  { intros f x y Hx Hy. destruct f; cbn [clamp_min fst snd]; destruct (Z.ltb_spec x 0), (Z.ltb_spec y 0); try lia; reflexivity. }
  assert (C2 : forall f x y, clamp_min (S f) (x, y) = if (x <? 0) || (y <? 0) then clamp_min f (if x <=? y then (0, y) else (x, 0)) else Ok (x, y)) by reflexivity.
  rewrite C2. cbn [fst snd]. destruct (Z.ltb_spec a 0), (Z.ltb_spec b 0), (Z.leb_spec a b); cbn [orb]; try lia;
    try (rewrite C1 by lia; apply f_equal; apply f_equal2; lia); try (apply f_equal; apply f_equal2; lia).
  - rewrite C2. destruct (Z.ltb_spec b 0), (Z.leb_spec 0 b); try lia. cbn [orb Z.ltb Z.compare]. rewrite C1 by lia. apply f_equal; apply f_equal2; lia.
  - rewrite C2. destruct (Z.ltb_spec a 0), (Z.leb_spec a 0); try lia. cbn [orb]. rewrite C1 by lia. apply f_equal; apply f_equal2; lia.
Qed.
Lemma zmax_list_spec l : forall a, (a <= zmax_list a l /\ forall x, In x l -> x <= zmax_list a l) /\ In (zmax_list a l) (a :: l).
Proof.
  unfold zmax_list. induction l as [|x l IH]; intro a; cbn [fold_left].
  - split; [split; [lia|intros ? []]|left; reflexivity].
  - destruct (IH (Z.max a x)) as [[H1 H2] H3]. split; [split; [lia|intros y [->|Hy]; [lia|auto]]|].
    destruct H3 as [H3|H3]; [|right; right; exact H3]. rewrite <- H3. destruct (Z.max_spec a x) as [[_ ->]|[_ ->]]; cbn; auto.
Qed.
Lemma zmin_list_spec l : forall a, (zmin_list a l <= a /\ forall x, In x l -> zmin_list a l <= x) /\ In (zmin_list a l) (a :: l).
Proof.
  unfold zmin_list. induction l as [|x l IH]; intro a; cbn [fold_left].
  - split; [split; [lia|intros ? []]|left; reflexivity].
  - destruct (IH (Z.min a x)) as [[H1 H2] H3]. split; [split; [lia|intros y [->|Hy]; [lia|auto]]|].
    destruct H3 as [H3|H3]; [|right; right; exact H3]. rewrite <- H3. destruct (Z.min_spec a x) as [[_ ->]|[_ ->]]; cbn; auto.
Qed.
Definition extent (cells : list (Z * Z)) (lo hi : Z * Z) : Prop :=
  (forall c, In c cells -> fst lo <= fst c <= fst hi /\ snd lo <= snd c <= snd hi) /\
  (exists c, In c cells /\ fst c = fst lo) /\ (exists c, In c cells /\ fst c = fst hi) /\
  (exists c, In c cells /\ snd c = snd lo) /\ (exists c, In c cells /\ snd c = snd hi).
Lemma window_spec shape th cells : cells <> [] -> exists lo hi, extent cells lo hi /\
  let v := thresh_value th (fst hi - fst lo) (snd hi - snd lo) in
  let bl := (Z.max (fst lo - v) 0, Z.max (snd lo - v) 0) in
  window shape th cells = Ok (bl, (Z.min (fst hi + (v + 1)) (fst shape), Z.min (snd hi + (v + 1)) (snd shape)),
                              map (fun c => (fst c - fst bl, snd c - snd bl)) cells).
Proof.
  destruct cells as [|c rest]; [congruence|]. intros _.
  exists (zmin_list (fst c) (map fst rest), zmin_list (snd c) (map snd rest)), (zmax_list (fst c) (map fst rest), zmax_list (snd c) (map snd rest)).
  destruct (zmin_list_spec (map fst rest) (fst c)) as [[A1 A2] A3]. destruct (zmin_list_spec (map snd rest) (snd c)) as [[B1 B2] B3].
  destruct (zmax_list_spec (map fst rest) (fst c)) as [[C1 C2] C3]. destruct (zmax_list_spec (map snd rest) (snd c)) as [[D1 D2] D3].
  split.
  - unfold extent. cbn [fst snd]. split.
    { intros d [<-|Hd]; [lia|]. pose proof (in_map fst _ _ Hd) as F. pose proof (in_map snd _ _ Hd) as S. specialize (A2 _ F). specialize (B2 _ S). specialize (C2 _ F). specialize (D2 _ S). lia. }
    change (fst c :: map fst rest) with (map fst (c :: rest)) in *. change (snd c :: map snd rest) with (map snd (c :: rest)) in *.
    apply in_map_iff in A3 as [a [? ?]], B3 as [b [? ?]], C3 as [e [? ?]], D3 as [d [? ?]]. 
    split; [exists a; auto|]. split; [exists e; auto|]. split; [exists b; auto|exists d; auto].
  - cbn [fst snd]. unfold window. cbn zeta. rewrite clamp_max_ok by (cbn [fst snd]; lia). cbn [bind]. rewrite clamp_min_ok. cbn [bind fst snd]. reflexivity.
Qed.

(** *** argmax, largest, count *)
Lemma argmax_from_spec l : forall i bi bv pre, length pre = i -> nth_error pre bi = Some bv ->
  (forall k v, nth_error pre k = Some v -> (v <= bv)%nat /\ ((k < bi)%nat -> (v < bv)%nat)) ->
  exists bv', nth_error (pre ++ l) (argmax_from l i bi bv) = Some bv' /\
  forall k v, nth_error (pre ++ l) k = Some v -> (v <= bv')%nat /\ ((k < argmax_from l i bi bv)%nat -> (v < bv')%nat).
Proof.
  induction l as [|x l IH]; intros i bi bv pre HL HB H; cbn [argmax_from].
  - rewrite app_nil_r. exists bv. auto.
  - replace (pre ++ x :: l)%list with ((pre ++ [x]) ++ l)%list by (rewrite <- app_assoc; reflexivity).
    assert (Hbi : (bi < length pre)%nat) by (apply nth_error_Some; rewrite HB; discriminate).
    destruct (Nat.ltb_spec bv x) as [Hlt|Hge]; apply IH.
    + rewrite app_length; cbn; lia.
    + rewrite nth_error_app2, HL, Nat.sub_diag by lia. reflexivity.
    + intros k v Hk. destruct (Nat.lt_ge_cases k (length pre)) as [K|K].
      * rewrite nth_error_app1 in Hk by exact K. destruct (H k v Hk). lia.
      * rewrite nth_error_app2 in Hk by exact K. destruct (k - length pre)%nat as [|z] eqn:Ez; [|destruct z; discriminate]. injection Hk as ->. lia.
    + rewrite app_length; cbn; lia.
    + rewrite nth_error_app1 by exact Hbi. exact HB.
    + intros k v Hk. destruct (Nat.lt_ge_cases k (length pre)) as [K|K].
      * rewrite nth_error_app1 in Hk by exact K. apply H, Hk.
      * rewrite nth_error_app2 in Hk by exact K. destruct (k - length pre)%nat as [|z] eqn:Ez; [|destruct z; discriminate]. injection Hk as ->. lia.
Qed.
Lemma argmax_unique l a m : nth_error l a = Some m -> (forall k v, nth_error l k = Some v -> (v <= m)%nat /\ ((k < a)%nat -> (v < m)%nat)) -> argmax l = a.
Proof.
  intros Ha H. destruct l as [|x l]; [destruct a; discriminate|]. unfold argmax.
  destruct (argmax_from_spec l 1 0 x [x] eq_refl eq_refl) as [m' [E1 E2]].
  { intros [|k] v Hk; [injection Hk as ->; lia|destruct k; discriminate]. }
  cbn [app] in E1, E2. set (r := argmax_from l 1 0 x) in *. destruct (H r m' E1) as [H1 H2]. destruct (E2 a m Ha) as [H3 H4].
  destruct (Nat.lt_trichotomy r a) as [T|[T|T]]; [specialize (H2 T); lia|exact T|specialize (H4 T); lia].
Qed.
Lemma largest_spec l m : In m l -> (forall v, In v l -> (v <= m)%nat) -> largest l = m.
Proof.
  unfold largest. assert (G : forall l acc, (forall v, In v l -> (v <= m)%nat) -> (acc <= m)%nat -> (In m l \/ acc = m) -> fold_left Nat.max l acc = m).
  { clear. induction l as [|x l IH]; intros acc H Ha Hm; cbn [fold_left]; [destruct Hm as [[]|Hm]; exact Hm|].
    pose proof (H x (or_introl eq_refl)). apply IH; [intros v Hv; apply H; right; exact Hv|lia|]. destruct Hm as [[->|Hm]|Hm]; [right; lia|left; exact Hm|right; lia]. }
  intros H1 H2. apply G; [exact H2|lia|left; exact H1].
Qed.
Definition between (lo len k : nat) : bool := (Nat.leb lo k && Nat.ltb k (lo + len))%bool.
Lemma between_iff lo len k : between lo len k = true <-> (lo <= k < lo + len)%nat.
Proof. unfold between. rewrite andb_true_iff, Nat.leb_le, Nat.ltb_lt. lia. Qed.
Lemma flat_map_between {A} (f : nat -> list A) a w n : (a + w <= n)%nat ->
  flat_map (fun j => if between a w j then f j else []) (seq 0 n) = flat_map f (seq a w).
Proof.
  intro H. replace n with (a + (w + (n - a - w)))%nat by lia. rewrite seq_app, seq_app, !flat_map_app. cbn [plus].
  assert (Hnil : forall l, (forall j, In j l -> between a w j = false) -> flat_map (fun j => if between a w j then f j else []) l = []).
  { induction l as [|j l IH]; intro Hl; [reflexivity|]. cbn. rewrite (Hl j (or_introl eq_refl)). apply IH. intros k Hk. apply Hl. right. exact Hk. }
  rewrite Hnil, (Hnil (seq (a + w) _)), app_nil_r; cbn [app].
  - assert (G : forall l, (forall j, In j l -> between a w j = true) -> flat_map (fun j => if between a w j then f j else []) l = flat_map f l).
    { induction l as [|j l IH]; intro Hl; [reflexivity|]. cbn. rewrite (Hl j (or_introl eq_refl)). f_equal. apply IH. intros k Hk. apply Hl. right. exact Hk. }
    apply G. intros j Hj. apply in_seq in Hj. apply between_iff. lia.
  - intros j Hj. apply in_seq in Hj. destruct (between a w j) eqn:E; [apply between_iff in E; lia|reflexivity].
  - intros j Hj. apply in_seq in Hj. destruct (between a w j) eqn:E; [apply between_iff in E; lia|reflexivity].
Qed.
Lemma count_flat {A} (f : A -> bool) l : count (map f l) = length (flat_map (fun x => if f x then [tt] else []) l).
Proof. unfold count. induction l as [|x l IH]; [reflexivity|]. cbn. destruct (f x); cbn; rewrite IH; reflexivity. Qed.
Lemma count_between a w n : (a + w <= n)%nat -> count (map (between a w) (seq 0 n)) = w.
Proof.
  intro H. rewrite count_flat. rewrite (flat_map_between (fun _ => [tt])) by exact H. rewrite <- (seq_length w a) at 2.
  induction (seq a w) as [|x l IH]; [reflexivity|]. cbn. f_equal. exact IH.
Qed.
Lemma count_none {A} (f : A -> bool) l : (forall x, f x = false) -> count (map f l) = 0%nat.
Proof. intro H. rewrite count_flat. induction l as [|x l IH]; [reflexivity|]. cbn. rewrite H. exact IH. Qed.

Lemma argmax_step n lo len v : (0 < v)%nat -> (0 < len)%nat -> (lo + len <= n)%nat ->
  argmax (map (fun i => if between lo len i then v else 0%nat) (seq 0 n)) = lo /\ largest (map (fun i => if between lo len i then v else 0%nat) (seq 0 n)) = v.
Proof.
  intros Hv Hl Hn.
  assert (E : nth_error (map (fun i => if between lo len i then v else 0%nat) (seq 0 n)) lo = Some v).
  { rewrite nth_error_map, nth_error_seq'. destruct (Nat.ltb_spec lo n); [|lia]. cbn [option_map plus].
    destruct (between lo len lo) eqn:E; [reflexivity|]. exfalso. assert (between lo len lo = true) by (apply between_iff; lia). congruence. }
  split.
  - apply argmax_unique with (m := v); [exact E|]. intros k x Hk. rewrite nth_error_map, nth_error_seq' in Hk.
    destruct (Nat.ltb_spec k n); [|discriminate]. cbn [option_map plus] in Hk. injection Hk as <-.
    destruct (between lo len k) eqn:E2; [apply between_iff in E2|]; lia.
  - apply largest_spec; [apply nth_error_In with lo; exact E|]. intros x Hx. apply in_map_iff in Hx as [i [<- _]]. destruct (between lo len i); lia.
Qed.

(** *** a preselection that is a rectangle: rows [b, b+h), columns [a, a+w) *)
Section Rect.
Variables (ny nx a w b h : nat).
Hypothesis Hw : (0 < w)%nat.
Hypothesis Hh : (0 < h)%nat.
Hypothesis Hax : (a + w <= nx)%nat.
Hypothesis Hby : (b + h <= ny)%nat.
Let m := tabulate ny nx (fun i j => (between b h i && between a w j)%bool).

Lemma sum_y_rect : sum_y m = map (fun i => if between b h i then w else 0%nat) (seq 0 ny).
Proof.
  unfold sum_y, m, tabulate. rewrite map_map. apply map_ext. intro i. destruct (between b h i); cbn [andb].
  - change (fun j => between a w j) with (between a w). apply count_between, Hax.
  - apply count_none. reflexivity.
Qed.
Lemma width_rect : width_of m = nx.
Proof. unfold m, tabulate, width_of. destruct ny as [|n]; [exfalso; lia|]. cbn [seq map]. rewrite map_length, seq_length. reflexivity. Qed.
Lemma sum_x_rect : sum_x m = map (fun j => if between a w j then h else 0%nat) (seq 0 nx).
Proof.
  unfold sum_x. rewrite width_rect. apply map_ext_in. intros j Hj. apply in_seq in Hj. unfold column_of, m, tabulate. rewrite map_map.
  rewrite (map_ext _ (fun i => (between b h i && between a w j)%bool)).
  - destruct (between a w j).
    + rewrite (map_ext _ (between b h)) by (intro i; apply andb_true_r). apply count_between, Hby.
    + apply count_none. intro i. apply andb_false_r.
  - intro i. rewrite (nth_indep _ false ((between b h i && between a w 0)%bool)) by (rewrite map_length, seq_length; lia).
    rewrite (map_nth (fun j => (between b h i && between a w j)%bool)). rewrite seq_nth by lia. reflexivity.
Qed.
Variables X Y : grid Q.
Hypothesis RX : rectangular ny nx X.
Hypothesis RY : rectangular ny nx Y.
Let pt i j := match at_ X i j, at_ Y i j with Some x, Some y => (x, y) | _, _ => (0%Q, 0%Q) end.
Lemma pt_grid i j : (i < ny)%nat -> (j < nx)%nat -> grid_point X Y i j (pt i j).
Proof.
  intros Hi Hj. destruct (proj1 (rect_at ny nx X i j RX) (conj Hi Hj)) as [x Hx]. destruct (proj1 (rect_at ny nx Y i j RY) (conj Hi Hj)) as [y Hy].
  unfold grid_point, pt. rewrite Hx, Hy. auto.
Qed.
Lemma flat_map_ext_in' {A B} (f g : A -> list B) l : (forall a, In a l -> f a = g a) -> flat_map f l = flat_map g l.
Proof. induction l as [|x l IH]; intro H; [reflexivity|]. cbn. rewrite (H x (or_introl eq_refl)), IH; [reflexivity|]. intros y Hy. apply H. right. exact Hy. Qed.
Lemma flat_map_single {A B} (f : A -> B) l : flat_map (fun x => [f x]) l = map f l.
Proof. induction l as [|x l IH]; [reflexivity|]. cbn. rewrite IH. reflexivity. Qed.
Lemma flat_map_flat_map' {A B C} (f : A -> list B) (g : B -> list C) l : flat_map g (flat_map f l) = flat_map (fun x => flat_map g (f x)) l.
Proof. induction l as [|x l IH]; [reflexivity|]. cbn. rewrite flat_map_app, IH. reflexivity. Qed.
Lemma flat_map_map' {A B C} (f : A -> B) (g : B -> list C) l : flat_map g (map f l) = flat_map (fun x => g (f x)) l.
Proof. induction l as [|x l IH]; [reflexivity|]. cbn. rewrite IH. reflexivity. Qed.
Lemma width_grid {A} (g : grid A) : rectangular ny nx g -> width_of g = nx.
Proof. intros [R1 R2]. destruct g as [|r g]; [cbn in R1; exfalso; lia|]. inversion R2. assumption. Qed.
Lemma selected_rect : selected X Y m = List.concat (map (fun i => map (pt i) (seq a w)) (seq b h)).
Proof.
  unfold selected, c_order. destruct RX as [RX1 _]. rewrite RX1, (width_grid X RX). rewrite flat_map_flat_map'.
  rewrite (flat_map_ext_in' _ (fun i => if between b h i then map (pt i) (seq a w) else [])).
  - rewrite flat_map_between by exact Hby. rewrite flat_map_concat_map. reflexivity.
  - intros i Hi. apply in_seq in Hi. rewrite flat_map_map'. cbn [fst snd].
    rewrite (flat_map_ext_in' _ (fun j => if between a w j then (if between b h i then [pt i j] else []) else [])).
    + rewrite flat_map_between by exact Hax. destruct (between b h i); [apply flat_map_single|]. induction (seq a w); [reflexivity|assumption].
    + intros j Hj. apply in_seq in Hj. unfold m. rewrite at_tabulate.
      destruct (Nat.ltb_spec i ny); [|lia]. destruct (Nat.ltb_spec j nx); [|lia]. cbn [andb].
      destruct (pt_grid i j ltac:(lia) ltac:(lia)) as [G1 G2]. rewrite G1, G2.
      destruct (between b h i), (between a w j); cbn [andb]; try reflexivity. destruct (pt i j); reflexivity.
Qed.
Lemma selected_nth k p : nth_error (selected X Y m) k = Some p <-> (k < h * w)%nat /\ p = pt (b + k / w) (a + k mod w).
Proof.
  rewrite selected_rect. rewrite (nth_error_concat w); [|apply Forall_forall; intros r Hr; apply in_map_iff in Hr as [i [<- _]]; rewrite map_length, seq_length; reflexivity|exact Hw].
  unfold at_. rewrite nth_error_map, nth_error_seq'. pose proof (Nat.mod_upper_bound k w ltac:(lia)).
  destruct (Nat.ltb_spec (k / w) h) as [K|K].
  - cbn [option_map]. rewrite nth_error_map, nth_error_seq'. destruct (Nat.ltb_spec (k mod w) w); [|lia]. cbn [option_map].
    assert (k < h * w)%nat. { apply Nat.div_lt_upper_bound in K || idtac. pose proof (Nat.div_mod k w ltac:(lia)). nia. }
    split; [intro E; injection E as <-; auto|]. intros [_ ->]. reflexivity.
  - cbn [option_map]. split; [discriminate|]. intros [E _]. assert (k / w < h)%nat by (apply Nat.div_lt_upper_bound; lia). lia.
Qed.
End Rect.

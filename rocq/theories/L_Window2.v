(** The mask, the sign and the extremum. *)
From Coq Require Import Lia Lqa.
From Verif Require Import M_Base M_Detect S_Detect M_Window S_Window L_Base L_Detect L_Window.
Open Scope Z_scope.

(** *** flat arrays *)
Lemma nth_error_concat {A} nx (g : grid A) k : Forall (fun r => length r = nx) g -> (0 < nx)%nat ->
  nth_error (List.concat g) k = at_ g (Nat.div k nx) (Nat.modulo k nx).
Proof.
  intros H Hnx. revert k. induction H as [|r g Hr _ IH]; intro k.
  - unfold at_. cbn. destruct k, (Nat.div _ nx); reflexivity.
  - cbn [List.concat]. destruct (Nat.lt_ge_cases k nx) as [Hk|Hk].
    + rewrite nth_error_app1 by lia. rewrite Nat.div_small, Nat.mod_small by exact Hk. reflexivity.
    + rewrite nth_error_app2 by lia. rewrite Hr, IH.
      assert (E : k = (k - nx + 1 * nx)%nat) by lia. rewrite E at 3 4. rewrite Nat.div_add, Nat.mod_add by lia.
      rewrite Nat.add_1_r. reflexivity.
Qed.
Lemma flat_map_flat_map {A B} (f : nat -> nat -> B) (g : B -> list A) ny nx :
  flat_map g (List.concat (tabulate ny nx f)) = flat_map (fun i => flat_map (fun j => g (f i j)) (seq 0 nx)) (seq 0 ny).
Proof.
  unfold tabulate. induction (seq 0 ny) as [|i l IH]; [reflexivity|]. cbn [map List.concat flat_map]. rewrite flat_map_app, IH. f_equal. clear IH.
  induction (seq 0 nx) as [|j m IHm]; [reflexivity|]. cbn. f_equal. exact IHm.
Qed.
Lemma flat_map_ext' {A B} (f g : A -> list B) l : (forall a, f a = g a) -> flat_map f l = flat_map g l.
Proof. intro H. induction l as [|a l IH]; [reflexivity|]. cbn. rewrite H, IH. reflexivity. Qed.

(** *** argmax *)
Lemma nan_argmax_spec l : forall i best, match nan_argmax l i best with
  | None => best = None /\ valid l = []
  | Some (b, k) => (best = Some (b, k) /\ (forall k' q, nth_error l k' = Some (Num q) -> (q <= b)%Q)) \/
      (exists k0, k = (i + k0)%nat /\ nth_error l k0 = Some (Num b) /\ (forall k' q, nth_error l k' = Some (Num q) -> (q <= b)%Q /\ ((k' < k0)%nat -> (q < b)%Q)) /\
                  match best with Some (b0, _) => (b0 < b)%Q | None => True end) end.
Proof.
  induction l as [|x l IH]; intros i best; cbn [nan_argmax].
  - destruct best as [[b k]|]; [left; split; [reflexivity|intros [|k'] q; discriminate]|auto].
  - destruct x as [|a].
    + specialize (IH (S i) best). destruct (nan_argmax l (S i) best) as [[b k]|]; [|exact IH]. destruct IH as [[-> H]|[k0 [-> [H1 [H2 H3]]]]].
      * left. split; [reflexivity|]. intros [|k'] q Hq; [discriminate|]. apply (H k' q Hq).
      * right. exists (S k0). split; [lia|]. split; [exact H1|]. split; [|exact H3]. intros [|k'] q Hq; [discriminate|].
        destruct (H2 k' q Hq). split; [auto|]. intro. apply H0. lia.
    + match goal with |- context [nan_argmax l (S i) ?B] => set (best' := B) end.
      specialize (IH (S i) best'). destruct (nan_argmax l (S i) best') as [[b k]|] eqn:E.
      2: { destruct IH as [IH _]. unfold best' in IH. destruct best as [[b0 k0]|]; [destruct (Qle_bool a b0)|]; discriminate. }
      destruct IH as [[E' H]|[k0 [-> [H1 [H2 H3]]]]].
      * destruct best as [[b0 k0]|]; unfold best' in E'.
        -- destruct (Qle_bool a b0) eqn:Q0.
           ++ injection E' as -> ->. apply Qle_bool_iff in Q0. left. split; [reflexivity|]. intros [|k'] q Hq; [|apply (H k' q Hq)].
              cbn in Hq. injection Hq as <-. exact Q0.
           ++ injection E' as -> ->. right. exists 0%nat. split; [lia|]. split; [reflexivity|].
              assert (b0 < b)%Q by (apply Qnot_le_lt; intro HH; apply Qle_bool_iff in HH; congruence). split; [|assumption].
              intros [|k'] q Hq; [cbn in Hq; injection Hq as <-; split; [apply Qle_refl|lia]|]. split; [apply (H k' q Hq)|lia].
        -- injection E' as -> ->. right. exists 0%nat. split; [lia|]. split; [reflexivity|]. split; [|exact I].
           intros [|k'] q Hq; [cbn in Hq; injection Hq as <-; split; [apply Qle_refl|lia]|]. split; [apply (H k' q Hq)|lia].
      * right. exists (S k0). split; [lia|]. split; [exact H1|].
        assert (Ha : (a < b)%Q /\ match best with Some (b0, _) => (b0 < b)%Q | None => True end).
        { unfold best' in H3. destruct best as [[b0 k1]|]; [|split; [exact H3|exact I]]. destruct (Qle_bool a b0) eqn:Q0.
          - apply Qle_bool_iff in Q0. split; [apply Qle_lt_trans with b0; assumption|exact H3].
          - assert (b0 < a)%Q by (apply Qnot_le_lt; intro HH; apply Qle_bool_iff in HH; congruence). split; [exact H3|lra]. }
        split; [|apply Ha]. intros [|k'] q Hq.
        { cbn in Hq. injection Hq as <-. split; [apply Qlt_le_weak, Ha|intros _; apply Ha]. }
        destruct (H2 k' q Hq). split; [auto|]. intro. apply H0. lia.
Qed.
Lemma nan_argmax_0 l : match nan_argmax l 0 None with
  | None => valid l = []
  | Some (b, k) => nth_error l k = Some (Num b) /\ (forall k' q, nth_error l k' = Some (Num q) -> (q <= b)%Q /\ ((k' < k)%nat -> (q < b)%Q)) end.
Proof.
  pose proof (nan_argmax_spec l 0 None) as H. destruct (nan_argmax l 0 None) as [[b k]|]; [|apply H].
  destruct H as [[H _]|[k0 [-> [H1 [H2 _]]]]]; [discriminate|]. split; assumption.
Qed.

(** *** mean and bounds *)
Lemma Qsum_le l : forall (b a : Q), (forall x, In x l -> (x <= b)%Q) -> (fold_left Qplus l a <= a + inject_Z (Z.of_nat (length l)) * b)%Q.
Proof.
  induction l as [|x l IH]; intros b a H; [cbn [fold_left length Z.of_nat]; change (inject_Z 0) with 0%Q; lra|]. cbn [fold_left].
  apply Qle_trans with (a + x + inject_Z (Z.of_nat (length l)) * b)%Q; [apply IH; intros y Hy; apply H; right; exact Hy|].
  cbn [length]. rewrite Nat2Z.inj_succ. unfold Z.succ. rewrite inject_Z_plus. pose proof (H x (or_introl eq_refl)). 
  change (inject_Z 1) with 1%Q. lra.
Qed.
Lemma Qsum_opp l : forall a : Q, (fold_left Qplus (map Qopp l) (- a) == - fold_left Qplus l a)%Q.
Proof.
  induction l as [|x l IH]; intro a; [reflexivity|]. cbn [fold_left map]. rewrite <- IH.
  assert (forall l (a b : Q), (a == b)%Q -> (fold_left Qplus l a == fold_left Qplus l b)%Q) as Hc.
  { clear. induction l as [|y l IH]; intros a b H; [exact H|]. cbn. apply IH. rewrite H. reflexivity. }
  apply Hc. ring.
Qed.
Lemma inject_pos n : (0 < n)%nat -> (0 < inject_Z (Z.of_nat n))%Q.
Proof. intro H. change 0%Q with (inject_Z 0). rewrite <- Zlt_Qlt. lia. Qed.
Lemma Qmean_num l m : Qmean l = Num m -> l <> [] /\ (inject_Z (Z.of_nat (length l)) * m == fold_left Qplus l 0)%Q.
Proof.
  unfold Qmean. destruct l as [|x l]; [discriminate|]. intro H. injection H as <-. split; [discriminate|].
  assert (0 < inject_Z (Z.of_nat (length (x :: l))))%Q by (apply inject_pos; cbn; lia). rewrite Qmult_div_r; [reflexivity|]. lra.
Qed.
Lemma mean_le_max l m b : Qmean l = Num m -> (forall x, In x l -> (x <= b)%Q) -> (m <= b)%Q.
Proof.
  intros H Hb. apply Qmean_num in H as [Hne H]. pose proof (Qsum_le l b 0 Hb). rewrite <- H in H0.
  assert (0 < inject_Z (Z.of_nat (length l)))%Q by (apply inject_pos; destruct l; [congruence|cbn; lia]).
  apply Qmult_le_l with (z := inject_Z (Z.of_nat (length l))); [assumption|]. lra.
Qed.
Lemma min_le_mean l m b : Qmean l = Num m -> (forall x, In x l -> (b <= x)%Q) -> (b <= m)%Q.
Proof.
  intros H Hb. apply Qmean_num in H as [Hne H].
  assert (Hb' : forall x, In x (map Qopp l) -> (x <= - b)%Q) by (intros x Hx; apply in_map_iff in Hx as [y [<- Hy]]; pose proof (Hb y Hy); lra).
  pose proof (Qsum_le (map Qopp l) (- b) (- 0) Hb') as H0. rewrite Qsum_opp, <- H, map_length in H0.
  assert (0 < inject_Z (Z.of_nat (length l)))%Q by (apply inject_pos; destruct l; [congruence|cbn; lia]).
  apply Qmult_le_l with (z := inject_Z (Z.of_nat (length l))); [assumption|]. lra.
Qed.
(** *** mask_data *)
Lemma np_cell_within ny nx c : 0 <= fst c < Z.of_nat ny -> 0 <= snd c < Z.of_nat nx -> np_cell ny nx c = Some (Z.to_nat (fst c), Z.to_nat (snd c)).
Proof.
  intros H1 H2. unfold np_cell, np_index.
  rewrite (proj2 (Z.leb_le 0 (fst c))), (proj2 (Z.ltb_lt (fst c) _)), (proj2 (Z.leb_le 0 (snd c))), (proj2 (Z.ltb_lt (snd c) _)) by lia. reflexivity.
Qed.
Lemma np_cells_within ny nx cells : cells_within ny nx cells ->
  sequence (map (np_cell ny nx) cells) = Some (map (fun c => (Z.to_nat (fst c), Z.to_nat (snd c))) cells).
Proof. induction 1 as [|c l [H1 H2] _ IH]; [reflexivity|]. cbn [map sequence]. rewrite np_cell_within, IH by assumption. reflexivity. Qed.
Lemma wall_iff ny nx cells i j : cells_within ny nx cells ->
  existsb (cell_eqb (i, j)) (map (fun c => (Z.to_nat (fst c), Z.to_nat (snd c))) cells) = true <-> In (Z.of_nat i, Z.of_nat j) cells.
Proof.
  intro H. rewrite existsb_exists. unfold cells_within in H. rewrite Forall_forall in H. split.
  - intros [[a b] [Hin E]]. apply in_map_iff in Hin as [[p q] [E2 Hin]]. injection E2 as <- <-. unfold cell_eqb in E. cbn in E.
    apply andb_true_iff in E as [E1 E3]. apply Nat.eqb_eq in E1, E3. subst. specialize (H _ Hin). cbn in H. rewrite !Z2Nat.id by lia. exact Hin.
  - intro Hin. exists (i, j). split; [apply in_map_iff; exists (Z.of_nat i, Z.of_nat j); cbn; rewrite !Nat2Z.id; auto|].
    unfold cell_eqb. cbn. rewrite !Nat.eqb_refl. reflexivity.
Qed.
Lemma escapes_ext ny nx (W W' : nat * nat -> Prop) c : (forall d, W d <-> W' d) -> escapes ny nx W c -> escapes ny nx W' c.
Proof.
  intros H Hc. induction Hc as [c Hb Hn|c d Hw Hn Ha _ IH]; [apply escapes_border|apply escapes_step with d]; auto; rewrite <- H; exact Hn.
Qed.

Definition sign_of (m : Q) : Q := if Qle_bool m 0 then (if Qle_bool 0 m then 0 else -1) else 1.
Lemma sign_cases m : ((m == 0)%Q /\ sign_of m = 0%Q) \/ ((0 < m)%Q /\ sign_of m = 1%Q) \/ ((m < 0)%Q /\ sign_of m = (-1)%Q).
Proof.
  unfold sign_of. destruct (Qle_bool m 0) eqn:E; [destruct (Qle_bool 0 m) eqn:E2|].
  - left. apply Qle_bool_iff in E, E2. split; [lra|reflexivity].
  - right. right. split; [|reflexivity]. apply Qnot_le_lt. intro H. apply Qle_bool_iff in H. congruence.
  - right. left. split; [|reflexivity]. apply Qnot_le_lt. intro H. apply Qle_bool_iff in H. congruence.
Qed.
Definition extremum_ok (ny nx : nat) (data : grid num) (mask : grid bool) (m s v : Q) (i j : nat) : Prop :=
  s = sign_of m /\ exists q, value_at data mask i j q /\ (v == s * (s * q))%Q /\
  forall i' j' q', value_at data mask i' j' q' -> (s * q' <= s * q)%Q /\ (before (i', j') (i, j) -> (s * q' < s * q)%Q).
Definition mask_ok (ny nx : nat) (cells : list (Z * Z)) (mask : grid bool) : Prop :=
  rectangular ny nx mask /\ forall i j, at_ mask i j = Some true <->
    (in_window ny nx (i, j) /\ (In (Z.of_nat i, Z.of_nat j) cells \/ ~ escapes ny nx (fun c => In (Z.of_nat (fst c), Z.of_nat (snd c)) cells) (i, j))).

Lemma valid_map_nan l : valid (map (nmul NaN) l) = [].
Proof. induction l as [|x l IH]; [reflexivity|exact IH]. Qed.
Lemma flat_ravel nx i j : (j < nx)%nat -> Nat.div (i * nx + j) nx = i /\ Nat.modulo (i * nx + j) nx = j.
Proof. intro H. rewrite Nat.add_comm, Nat.div_add, Nat.mod_add, Nat.div_small, Nat.mod_small by lia. auto. Qed.
Lemma mask_data_spec ny nx cells data : rectangular ny nx data -> (0 < ny)%nat -> (0 < nx)%nat -> cells_within ny nx cells ->
  exists mask, mask_ok ny nx cells mask /\
  match Qmean (values_inside ny nx data mask) with
  | NaN => mask_data cells data = Err ValueError
  | Num m => exists s v i j, mask_data cells data = Ok (mask, Num s, (Num v, i, j)) /\ extremum_ok ny nx data mask m s v i j
  end.
Proof.
  intros R Hny Hnx Hc. pose proof R as [R1 R2]. unfold mask_data. rewrite R1.
  assert (E : match data with r :: _ => length r | [] => O end = nx).
  { destruct data as [|r g]; [cbn in R1; lia|]. inversion R2. assumption. }
  rewrite E. rewrite np_cells_within by exact Hc.
  destruct (fill_holes_spec ny nx (fun i j => existsb (cell_eqb (i, j)) (map (fun c => (Z.to_nat (fst c), Z.to_nat (snd c))) cells))) as [mask [F [RM HM]]].
  rewrite F. cbn [bind]. exists mask. split.
  { split; [exact RM|]. intros i j. rewrite HM. split; intros [H1 H2]; (split; [exact H1|]).
    - right. intro He. apply H2. eapply escapes_ext; [|exact He]. intros [a b]. cbn [fst snd]. rewrite (wall_iff ny nx) by exact Hc. reflexivity.
    - intro He. destruct H2 as [H2|H2].
      + assert (Hn : ~ (existsb (cell_eqb (i, j)) (map (fun c => (Z.to_nat (fst c), Z.to_nat (snd c))) cells) = true)).
        { inversion He as [c Hb Hn Ec|c d Hw Hn Ha Hd Ec]; exact Hn. }
        apply Hn. apply (wall_iff ny nx); assumption.
      + apply H2. eapply escapes_ext; [|exact He]. intros [a b]. cbn [fst snd]. rewrite (wall_iff ny nx) by exact Hc. reflexivity. }
  set (cellv := fun i j => match at_ mask i j, at_ data i j with Some true, Some x => x | _, _ => NaN end).
  set (flat := List.concat (tabulate ny nx cellv)).
  assert (HV : valid flat = values_inside ny nx data mask).
  { unfold valid, flat. rewrite (flat_map_flat_map cellv). unfold values_inside. apply flat_map_ext'. intro i. apply flat_map_ext'. intro j.
    unfold cellv. destruct (at_ mask i j) as [[|]|]; [|reflexivity|reflexivity]. destruct (at_ data i j) as [[|q]|]; reflexivity. }
  rewrite nnanmean_centre, HV.
  assert (HF : forall k, nth_error flat k = at_ (tabulate ny nx cellv) (Nat.div k nx) (Nat.modulo k nx)).
  { intro k. apply nth_error_concat; [apply tabulate_rect|exact Hnx]. }
  destruct (Qmean (values_inside ny nx data mask)) as [|m] eqn:EM.
  - cbn [nsign]. pose proof (nan_argmax_0 (map (nmul NaN) flat)) as HA. destruct (nan_argmax _ 0 None) as [[b k]|]; [|reflexivity].
    destruct HA as [HA _]. rewrite nth_error_map in HA. destruct (nth_error flat k); discriminate.
  - assert (EN : nsign (Num m) = Num (sign_of m)) by reflexivity. rewrite EN. set (s := sign_of m) in *.
    pose proof (nan_argmax_0 (map (nmul (Num s)) flat)) as HA. destruct (nan_argmax _ 0 None) as [[b k]|].
    + destruct HA as [HA1 HA2]. rewrite nth_error_map in HA1. destruct (nth_error flat k) as [x|] eqn:Ek; [|discriminate].
      cbn in HA1. destruct x as [|q]; [discriminate|]. injection HA1 as <-.
      exists s, (s * (s * q))%Q, (Nat.div k nx), (Nat.modulo k nx). split; [reflexivity|]. split; [reflexivity|]. exists q.
      rewrite HF, at_tabulate in Ek. split; [|split; [reflexivity|]].
      { destruct (_ && _)%bool; [|discriminate]. injection Ek as Ek. unfold cellv in Ek. unfold value_at.
        destruct (at_ mask _ _) as [[|]|]; try discriminate. destruct (at_ data _ _); [|discriminate]. rewrite Ek. auto. }
      intros i' j' q' [V1 V2]. assert (Hij : (i' < ny /\ j' < nx)%nat) by (apply (rect_at ny nx data i' j' R); eauto).
      destruct (flat_ravel nx i' j' (proj2 Hij)) as [D1 D2].
      assert (N : nth_error (map (nmul (Num s)) flat) (i' * nx + j') = Some (Num (s * q'))).
      { rewrite nth_error_map, HF, D1, D2, at_tabulate. rewrite (proj2 (Nat.ltb_lt i' ny)), (proj2 (Nat.ltb_lt j' nx)) by apply Hij.
        cbn [andb option_map]. unfold cellv. rewrite V1, V2. reflexivity. }
      destruct (HA2 _ _ N) as [B1 B2]. split; [exact B1|]. intro HB. apply B2. unfold before in HB. cbn [fst snd] in HB.
      pose proof (Nat.div_mod k nx ltac:(lia)). pose proof (Nat.mod_upper_bound k nx ltac:(lia)). destruct HB as [HB|[HB1 HB2]].
      * assert (i' * nx + nx <= (k / nx) * nx)%nat by (replace (i' * nx + nx)%nat with ((S i') * nx)%nat by lia; apply Nat.mul_le_mono_r; lia). lia.
      * rewrite <- HB1 in H. lia.
    + exfalso. assert (valid flat <> []). { rewrite HV. apply Qmean_num in EM. apply EM. }
      apply H. clear -HA. induction flat as [|[|q] l IH]; [reflexivity|apply IH; exact HA|discriminate].
Qed.

(** *** consequences *)
Lemma values_inside_iff ny nx data mask q : rectangular ny nx data ->
  In q (values_inside ny nx data mask) <-> exists i j, value_at data mask i j q.
Proof.
  intro R. unfold values_inside. rewrite in_flat_map. split.
  - intros [i [_ H]]. apply in_flat_map in H as [j [_ H]]. exists i, j. unfold value_at. destruct (at_ mask i j) as [[|]|]; try contradiction.
    destruct (at_ data i j) as [[|x]|]; try contradiction. destruct H as [->|[]]. auto.
  - intros [i [j [H1 H2]]]. assert (Hij : (i < ny /\ j < nx)%nat) by (apply (rect_at ny nx data i j R); eauto).
    exists i. split; [apply in_seq; lia|]. apply in_flat_map. exists j. split; [apply in_seq; lia|]. rewrite H1, H2. left. reflexivity.
Qed.
Lemma extremum_cases ny nx data mask m s v i j : rectangular ny nx data -> Qmean (values_inside ny nx data mask) = Num m ->
  extremum_ok ny nx data mask m s v i j ->
  ((v == 0)%Q <-> (m == 0)%Q) /\ (Qabs m <= Qabs v)%Q /\ (exists q, value_at data mask i j q /\ (~ (m == 0)%Q -> (v == q)%Q)) /\
  ((0 < m)%Q -> s = 1%Q /\ forall i' j' q', value_at data mask i' j' q' -> (q' <= v)%Q /\ (before (i', j') (i, j) -> (q' < v)%Q)) /\
  ((m < 0)%Q -> s = (-1)%Q /\ forall i' j' q', value_at data mask i' j' q' -> (v <= q')%Q /\ (before (i', j') (i, j) -> (v < q')%Q)) /\
  ((m == 0)%Q -> s = 0%Q /\ forall i' j' q', value_at data mask i' j' q' -> ~ before (i', j') (i, j)).
Proof.
  intros R EM [-> [q [Hq [Hv Hmax]]]].
  destruct (sign_cases m) as [[Hm Es]|[[Hm Es]|[Hm Es]]]; rewrite Es in *.
  - assert (v == 0)%Q by (rewrite Hv; ring). split; [tauto|]. split; [rewrite Hm, H; apply Qle_refl|]. split; [exists q; split; [exact Hq|tauto]|].
    split; [intro; exfalso; lra|]. split; [intro; exfalso; lra|]. intros _. split; [reflexivity|]. intros i' j' q' Hq' HB.
    destruct (Hmax _ _ _ Hq') as [_ HH]. specialize (HH HB). lra.
  - assert (Ev : (v == q)%Q) by (rewrite Hv; ring).
    assert (Hmq : (m <= q)%Q). { apply (mean_le_max _ _ _ EM). intros x Hx. apply (values_inside_iff ny nx) in Hx as [a [b Hx]]; [|exact R]. destruct (Hmax _ _ _ Hx). lra. }
    split; [split; intro; exfalso; lra|]. split; [rewrite Ev, !Qabs_pos; lra|]. split; [exists q; auto|].
    split; [|split; intro; exfalso; lra]. intros _. split; [reflexivity|]. intros i' j' q' Hq'. destruct (Hmax _ _ _ Hq') as [H1 H2].
    split; [lra|]. intro HB. specialize (H2 HB). lra.
  - assert (Ev : (v == q)%Q) by (rewrite Hv; ring).
    assert (Hmq : (q <= m)%Q). { apply (min_le_mean _ _ _ EM). intros x Hx. apply (values_inside_iff ny nx) in Hx as [a [b Hx]]; [|exact R]. destruct (Hmax _ _ _ Hx). lra. }
    split; [split; intro; exfalso; lra|]. split; [rewrite Ev, !Qabs_neg; lra|]. split; [exists q; auto|].
    split; [intro; exfalso; lra|]. split; [|intro; exfalso; lra]. intros _. split; [reflexivity|]. intros i' j' q' Hq'. destruct (Hmax _ _ _ Hq') as [H1 H2].
    split; [lra|]. intro HB. specialize (H2 HB). lra.
Qed.

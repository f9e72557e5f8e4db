(** Flood fill and extremum. *)
From Coq Require Import Lia.
From Verif Require Import M_Base M_Detect S_Detect M_Window S_Window L_Base L_Detect.

(** *** arrays *)
Lemma nth_error_seq' n s i : nth_error (seq s n) i = if Nat.ltb i n then Some (s + i)%nat else None.
Proof.
  revert s i. induction n as [|n IH]; intros s i; [destruct i; reflexivity|].
  destruct i as [|i]; cbn [seq nth_error]; [rewrite Nat.add_0_r; reflexivity|]. rewrite IH.
  destruct (Nat.ltb_spec i n), (Nat.ltb_spec (S i) (S n)); try lia; [f_equal; lia|reflexivity].
Qed.
Lemma at_tabulate {A} ny nx (f : nat -> nat -> A) i j :
  at_ (tabulate ny nx f) i j = if (Nat.ltb i ny && Nat.ltb j nx)%bool then Some (f i j) else None.
Proof.
  unfold at_, tabulate. rewrite nth_error_map, nth_error_seq'. destruct (Nat.ltb i ny); [|reflexivity].
  cbn [option_map andb]. rewrite nth_error_map, nth_error_seq'. destruct (Nat.ltb j nx); reflexivity.
Qed.
Lemma tabulate_rect {A} ny nx (f : nat -> nat -> A) : rectangular ny nx (tabulate ny nx f).
Proof.
  split; [unfold tabulate; rewrite map_length, seq_length; reflexivity|].
  apply Forall_forall. intros r Hr. apply in_map_iff in Hr as [i [<- _]]. rewrite map_length, seq_length. reflexivity.
Qed.
Lemma rect_at {A} ny nx (g : grid A) i j : rectangular ny nx g -> ((i < ny /\ j < nx)%nat <-> exists a, at_ g i j = Some a).
Proof.
  intros [H1 H2]. unfold at_. split.
  - intros [Hi Hj]. destruct (nth_error g i) as [r|] eqn:E; [|apply nth_error_None in E; lia].
    rewrite Forall_forall in H2. pose proof (H2 r (nth_error_In _ _ E)).
    destruct (nth_error r j) as [a|] eqn:E2; [eauto|apply nth_error_None in E2; lia].
  - intros [a Ha]. destruct (nth_error g i) as [r|] eqn:E; [|discriminate].
    rewrite Forall_forall in H2. pose proof (H2 r (nth_error_In _ _ E)).
    split; [rewrite <- H1; apply nth_error_Some; rewrite E; discriminate|].
    assert (nth_error r j <> None) as HH by (rewrite Ha; discriminate). apply nth_error_Some in HH. lia.
Qed.
Lemma rect_ext {A} ny nx (g h : grid A) : rectangular ny nx g -> rectangular ny nx h ->
  (forall i j, (i < ny)%nat -> (j < nx)%nat -> at_ g i j = at_ h i j) -> g = h.
Proof.
  intros [G1 G2] [H1 H2] E. apply nth_ext with (d := []) (d' := []); [lia|]. intros i Hi.
  rewrite Forall_forall in G2, H2.
  assert (Hg : length (nth i g []) = nx) by (apply G2, nth_In; lia).
  assert (Hh : length (nth i h []) = nx) by (apply H2, nth_In; lia).
  destruct (nth i g []) as [|a0 r0] eqn:Er.
  - destruct (nth i h []); [reflexivity|cbn in *; lia].
  - apply nth_ext with (d := a0) (d' := a0); [lia|]. intros j Hj.
    specialize (E i j ltac:(lia) ltac:(lia)). unfold at_ in E.
    rewrite (nth_error_nth' g [] Hi), (nth_error_nth' h []) in E by lia. rewrite Er in E.
    rewrite (nth_error_nth' (a0 :: r0) a0 Hj), (nth_error_nth' (nth i h []) a0) in E by lia. congruence.
Qed.
Lemma row_eqb_eq a b : row_eqb a b = true <-> a = b.
Proof.
  revert b. induction a as [|x a IH]; intros [|y b]; cbn; try (split; congruence).
  rewrite andb_true_iff, IH, Bool.eqb_true_iff. split; [intros [-> ->]; reflexivity|]. intro H. injection H; auto.
Qed.
Lemma grid_eqb_eq a b : grid_eqb a b = true <-> a = b.
Proof.
  revert b. induction a as [|x a IH]; intros [|y b]; cbn; try (split; congruence).
  rewrite andb_true_iff, IH, row_eqb_eq. split; [intros [-> ->]; reflexivity|]. intro H. injection H; auto.
Qed.

(** *** counting *)
Definition trues (l : list bool) : nat := length (filter (fun b => b) l).
Definition total (g : grid bool) : nat := list_sum (map trues g).
Lemma trues_le l : (trues l <= length l)%nat.
Proof. unfold trues. induction l as [|[|] l IH]; cbn; lia. Qed.
Lemma total_le ny nx g : rectangular ny nx g -> (total g <= ny * nx)%nat.
Proof.
  intros [H1 H2]. subst ny. unfold total. induction H2 as [|r g Hr _ IH]; [cbn; lia|].
  change (trues r + list_sum (map trues g) <= nx + length g * nx)%nat. pose proof (trues_le r). lia.
Qed.
Lemma trues_mono a b : length a = length b -> (forall j, nth_error a j = Some true -> nth_error b j = Some true) ->
  (trues a <= trues b)%nat /\ (trues a = trues b -> a = b).
Proof.
  revert b. induction a as [|x a IH]; intros [|y b] HL H; cbn in HL; try lia; [split; auto|].
  destruct (IH b ltac:(lia) (fun j => H (S j))) as [I1 I2]. unfold trues in *. pose proof (H 0%nat) as H0. cbn in H0.
  destruct x, y; cbn; split; try lia.
  - intro. f_equal. apply I2. lia.
  - specialize (H0 eq_refl). congruence.
  - specialize (H0 eq_refl). congruence.
  - intro. f_equal. apply I2. lia.
Qed.
Lemma total_mono nx a b : length a = length b -> Forall (fun r => length r = nx) a -> Forall (fun r => length r = nx) b ->
  (forall i j, at_ a i j = Some true -> at_ b i j = Some true) ->
  (total a <= total b)%nat /\ (total a = total b -> a = b).
Proof.
  revert b. induction a as [|x a IH]; intros [|y b] HL Ha Hb H; cbn in HL; try lia; [split; auto|].
  inversion Ha; inversion Hb; subst.
  destruct (IH b ltac:(lia) ltac:(assumption) ltac:(assumption) (fun i => H (S i))) as [I1 I2].
  destruct (trues_mono x y ltac:(lia) (H 0%nat)) as [J1 J2]. unfold total in *.
  change (list_sum (map trues (x :: a))) with (trues x + list_sum (map trues a))%nat. change (list_sum (map trues (y :: b))) with (trues y + list_sum (map trues b))%nat.
  split; [lia|].
  intro. f_equal; [apply J2; lia|apply I2; lia].
Qed.

(** *** flood fill *)
Section Fill.
Variables (ny nx : nat) (wall : nat -> nat -> bool).
Let W (c : nat * nat) : Prop := wall (fst c) (snd c) = true.
Let free i j := negb (wall i j).

Lemma invaded_in cur i j : rectangular ny nx cur -> (i < ny)%nat -> (j < nx)%nat -> invaded cur i j = true -> at_ cur i j = Some true.
Proof.
  intros R Hi Hj H. destruct (proj1 (rect_at ny nx cur i j R) (conj Hi Hj)) as [a Ha]. unfold invaded in H. rewrite Ha in *. congruence.
Qed.
Lemma dilate_true cur i j : rectangular ny nx cur ->
  at_ (dilate ny nx free cur) i j = Some true <->
  (in_window ny nx (i, j) /\ ~ W (i, j) /\
   (at_ cur i j = Some true \/ on_border ny nx (i, j) \/ exists d, adjacent (i, j) d /\ at_ cur (fst d) (snd d) = Some true)).
Proof.
  intro R. unfold dilate. rewrite at_tabulate. unfold in_window, on_border, in_window, W, adjacent, free. cbn [fst snd].
  destruct (Nat.ltb_spec i ny) as [Hi|Hi]; [|split; [discriminate|lia]].
  destruct (Nat.ltb_spec j nx) as [Hj|Hj]; [|split; [discriminate|lia]]. cbn [andb]. split.
  - intro H. injection H as H. apply andb_true_iff in H as [Hf H]. split; [auto|]. split; [destruct (wall i j); [discriminate|discriminate]|].
    rewrite !orb_true_iff in H. destruct H as [[[[H|H]|H]|H]|H].
    + left. apply invaded_in; auto.
    + destruct i as [|i]; [right; left; repeat split; auto|]. right. right. exists (i, S j - 1)%nat. cbn [fst snd].
      replace (S j - 1)%nat with j by lia. split; [left; split; auto|]. apply invaded_in; auto. lia.
    + destruct (Nat.eq_dec (S i) ny) as [E|E]; [right; left; repeat split; auto|]. right. right. exists (S i, j). cbn [fst snd].
      split; [left; split; auto|]. apply invaded_in; auto. lia.
    + destruct j as [|j]; [right; left; repeat split; auto|]. right. right. exists (i, j). cbn [fst snd].
      split; [right; split; auto|]. apply invaded_in; auto. lia.
    + destruct (Nat.eq_dec (S j) nx) as [E|E]; [right; left; repeat split; auto|]. right. right. exists (i, S j). cbn [fst snd].
      split; [right; split; auto|]. apply invaded_in; auto. lia.
  - intros [_ [Hw H]]. f_equal. apply andb_true_iff. split; [destruct (wall i j); [elim Hw; reflexivity|reflexivity]|].
    assert (Hinv : forall a b, at_ cur a b = Some true -> invaded cur a b = true) by (intros a b E; unfold invaded; rewrite E; reflexivity).
    assert (Hout : forall a b, ~ (a < ny /\ b < nx)%nat -> invaded cur a b = true).
    { intros a b Hn. unfold invaded. destruct (at_ cur a b) as [v|] eqn:E; [|reflexivity]. elim Hn. apply (rect_at ny nx cur a b R). eauto. }
    rewrite !orb_true_iff. destruct H as [H|[[_ H]|[[a b] [Hadj H]]]].
    + left. left. left. left. auto.
    + destruct H as [->|[E|[->|E]]]; [left; left; left; right; reflexivity|left; left; right; apply Hout; lia|left; right; reflexivity|right; apply Hout; lia].
    + cbn [fst snd] in *. destruct Hadj as [[E [->|E2]]|[E [->|E2]]]; subst.
      * left. left. right. auto.
      * left. left. left. right. auto.
      * right. auto.
      * left. right. auto.
Qed.
Lemma dilate_rect cur : rectangular ny nx (dilate ny nx free cur).
Proof. apply tabulate_rect. Qed.

Definition sound (cur : grid bool) := rectangular ny nx cur /\ (forall i j, at_ cur i j = Some true -> escapes ny nx W (i, j) /\ ~ W (i, j)).
Lemma escapes_window c : escapes ny nx W c -> in_window ny nx c.
Proof. intros [d [H _] _|d e H _ _ _]; exact H. Qed.
Lemma dilate_sound cur : sound cur -> sound (dilate ny nx free cur).
Proof.
  intros [R H]. split; [apply dilate_rect|]. intros i j E. apply dilate_true in E as [Hw [Hn E]]; [|exact R]. split; [|exact Hn].
  destruct E as [E|[E|[[a b] [Hadj E]]]].
  - apply H, E.
  - apply escapes_border; auto.
  - apply escapes_step with (d := (a, b)); auto. apply H, E.
Qed.
Lemma dilate_grows cur : sound cur -> forall i j, at_ cur i j = Some true -> at_ (dilate ny nx free cur) i j = Some true.
Proof.
  intros [R H] i j E. apply dilate_true; [exact R|]. destruct (H i j E) as [He Hn]. split; [apply escapes_window, He|]. auto.
Qed.
Lemma fixed_complete cur : rectangular ny nx cur -> dilate ny nx free cur = cur -> forall c, escapes ny nx W c -> at_ cur (fst c) (snd c) = Some true.
Proof.
  intros R F c Hc. induction Hc as [[i j] Hb Hn|[i j] d Hw Hn Hadj _ IH]; cbn [fst snd]; rewrite <- F; apply dilate_true; auto.
  - split; [apply Hb|auto].
  - split; [exact Hw|]. split; [exact Hn|]. right. right. eauto.
Qed.
Lemma invade_ok fuel : forall cur, sound cur -> (ny * nx <= fuel + total cur)%nat ->
  exists out, invade fuel ny nx free cur = Ok out /\ sound out /\ dilate ny nx free out = out.
Proof.
  induction fuel as [|fuel IH]; intros cur S0 HF; cbn [invade].
  - destruct (grid_eqb _ _) eqn:E; [apply grid_eqb_eq in E; eauto|]. exfalso.
    destruct (dilate_rect cur) as [D1 D2]. pose proof S0 as [[R1 R2] _].
    destruct (total_mono nx cur (dilate ny nx free cur) ltac:(lia) R2 D2 (dilate_grows cur S0)) as [T1 T2].
    pose proof (total_le ny nx _ (dilate_rect cur)). assert (cur = dilate ny nx free cur) as T3 by (apply T2; lia).
    rewrite <- T3 in E. assert (grid_eqb cur cur = true) by (apply grid_eqb_eq; reflexivity). congruence.
  - destruct (grid_eqb _ _) eqn:E; [apply grid_eqb_eq in E; eauto|]. apply IH; [apply dilate_sound, S0|].
    destruct (dilate_rect cur) as [D1 D2]. pose proof S0 as [[R1 R2] _].
    destruct (total_mono nx cur (dilate ny nx free cur) ltac:(lia) R2 D2 (dilate_grows cur S0)) as [T1 T2].
    destruct (Nat.eq_dec (total cur) (total (dilate ny nx free cur))) as [T3|T3]; [|lia].
    apply T2 in T3. rewrite <- T3 in E. assert (grid_eqb cur cur = true) by (apply grid_eqb_eq; reflexivity). congruence.
Qed.
End Fill.

Lemma at_map_negb g i j b : at_ (map (map negb) g) i j = Some b <-> at_ g i j = Some (negb b).
Proof.
  unfold at_. rewrite nth_error_map. destruct (nth_error g i) as [r|]; cbn; [|split; discriminate]. rewrite nth_error_map.
  destruct (nth_error r j) as [v|]; cbn; [|split; discriminate]. destruct v, b; cbn; split; congruence.
Qed.
Lemma fill_holes_spec ny nx wall : exists mask, fill_holes ny nx wall = Ok mask /\ rectangular ny nx mask /\
  forall i j, at_ mask i j = Some true <-> (in_window ny nx (i, j) /\ ~ escapes ny nx (fun c => wall (fst c) (snd c) = true) (i, j)).
Proof.
  unfold fill_holes.
  assert (S0 : sound ny nx wall (tabulate ny nx (fun _ _ => false))).
  { split; [apply tabulate_rect|]. intros i j. rewrite at_tabulate. destruct (_ && _)%bool; discriminate. }
  destruct (invade_ok ny nx wall (ny * nx) _ S0) as [out [E [[R S1] F]]]; [lia|]. rewrite E. cbn [bind].
  exists (map (map negb) out). split; [reflexivity|]. split.
  { destruct R as [R1 R2]. split; [rewrite map_length; exact R1|]. apply Forall_forall. intros r Hr. apply in_map_iff in Hr as [r0 [<- Hr]].
    rewrite map_length. rewrite Forall_forall in R2. apply R2, Hr. }
  intros i j. rewrite at_map_negb. cbn [negb]. split.
  - intro H. assert (Hw : in_window ny nx (i, j)) by (apply (rect_at ny nx out i j R); eauto). split; [exact Hw|].
    intro He. pose proof (fixed_complete ny nx wall out R F _ He) as Hc. cbn [fst snd] in Hc. congruence.
  - intros [Hw Hn]. destruct (proj1 (rect_at ny nx out i j R) Hw) as [[|] Hb]; [|exact Hb]. elim Hn. apply S1, Hb.
Qed.

(** The whole computation: vertices, window, mask, extremum. *)
From Coq Require Import Lia Lqa.
From Verif Require Import M_Base M_Detect S_Detect M_Window S_Window L_Base L_Detect L_Window L_Window2 L_Window3 L_Window4.
Open Scope Z_scope.

Lemma nth_error_firstn {A} n : forall (l : list A) i, nth_error (firstn n l) i = if Nat.ltb i n then nth_error l i else None.
Proof.
  induction n as [|n IH]; intros l i; [destruct i; reflexivity|]. destruct l as [|x l]; [destruct i; [reflexivity|cbn [firstn nth_error]; destruct (Nat.ltb _ _); reflexivity]|].
  destruct i as [|i]; [reflexivity|]. cbn [firstn nth_error]. rewrite IH. reflexivity.
Qed.
Lemma nth_error_skipn {A} n : forall (l : list A) i, nth_error (skipn n l) i = nth_error l (n + i).
Proof. induction n as [|n IH]; intros l i; [reflexivity|]. destruct l as [|x l]; [destruct i; reflexivity|]. cbn. apply IH. Qed.
Lemma nth_error_slice {A} lo hi (l : list A) i : nth_error (slice lo hi l) i = if Nat.ltb i (Z.to_nat (hi - lo)) then nth_error l (Z.to_nat lo + i) else None.
Proof. unfold slice. rewrite nth_error_firstn, nth_error_skipn. reflexivity. Qed.
Lemma at_slice2 {A} y0 y1 x0 x1 (g : grid A) i j a : at_ (slice2 y0 y1 x0 x1 g) i j = Some a ->
  at_ g (Z.to_nat y0 + i) (Z.to_nat x0 + j) = Some a.
Proof.
  unfold at_, slice2. rewrite nth_error_map, nth_error_slice. destruct (Nat.ltb i _); [|discriminate].
  destruct (nth_error g (Z.to_nat y0 + i)) as [r|]; [|discriminate]. cbn [option_map]. rewrite nth_error_slice.
  destruct (Nat.ltb j _); [auto|discriminate].
Qed.
Lemma slice_length {A} lo hi (l : list A) : length (slice lo hi l) = Nat.min (Z.to_nat (hi - lo)) (length l - Z.to_nat lo).
Proof. unfold slice. rewrite firstn_length, skipn_length. reflexivity. Qed.
Lemma in_firstn {A} n (l : list A) x : In x (firstn n l) -> In x l.
Proof. revert l. induction n as [|n IH]; intros [|y l] H; try contradiction. destruct H as [->|H]; [left; reflexivity|right; auto]. Qed.
Lemma in_skipn {A} n (l : list A) x : In x (skipn n l) -> In x l.
Proof. revert l. induction n as [|n IH]; intros [|y l] H; try contradiction; try exact H. right. apply IH, H. Qed.
Lemma slice2_rect {A} H W y0 y1 x0 x1 (g : grid A) : rectangular H W g ->
  rectangular (Nat.min (Z.to_nat (y1 - y0)) (H - Z.to_nat y0)) (Nat.min (Z.to_nat (x1 - x0)) (W - Z.to_nat x0)) (slice2 y0 y1 x0 x1 g).
Proof.
  intros [R1 R2]. unfold slice2. split; [rewrite map_length, slice_length, R1; reflexivity|]. apply Forall_forall. intros r Hr.
  apply in_map_iff in Hr as [r0 [<- Hr]]. rewrite slice_length. unfold slice in Hr. apply in_firstn, in_skipn in Hr.
  rewrite Forall_forall in R2. rewrite (R2 _ Hr). reflexivity.
Qed.
Lemma grid_cells_nonneg tree X Y c cells : grid_cells tree X Y c = Ok cells -> forall d, In d cells -> 0 <= fst d /\ 0 <= snd d.
Proof.
  unfold grid_cells. destruct (nmean _) as [|px]; [discriminate|]. destruct (nmean _) as [|py]; [discriminate|]. cbn zeta.
  destruct (selected _ _ _); [discriminate|]. destruct (sequence (map finite_point c)); [|discriminate].
  destruct (sequence _); [|discriminate]. intros H d Hd. injection H as <-. apply in_map_iff in Hd as [e [<- _]]. cbn. lia.
Qed.
Lemma mask_data_ok_within cells data out : (forall d, In d cells -> 0 <= fst d /\ 0 <= snd d) ->
  mask_data cells data = Ok out -> cells_within (length data) (match data with r :: _ => length r | [] => O end) cells.
Proof.
  intros Hn H. unfold mask_data in H. destruct (sequence _) as [cs|] eqn:E; [|discriminate]. clear H. unfold cells_within.
  revert cs E. induction cells as [|c l IH]; intros cs E; [constructor|]. cbn [map sequence] in E.
  destruct (np_cell _ _ c) as [ij|] eqn:Ec; [|discriminate]. destruct (sequence _) as [r|] eqn:Er; [|discriminate].
  constructor; [|apply (IH (fun d Hd => Hn d (or_intror Hd)) r eq_refl)]. destruct (Hn c (or_introl eq_refl)) as [N1 N2].
  unfold np_cell, np_index in Ec.
  repeat match type of Ec with
  | context [?x <=? ?y] => destruct (Z.leb_spec x y); cbn [andb] in Ec
  | context [?x <? ?y] => destruct (Z.ltb_spec x y); cbn [andb] in Ec
  end; try discriminate; lia.
Qed.
Lemma mask_data_spec' cells data out : rectangular (length data) (match data with r :: _ => length r | [] => O end) data -> cells <> [] ->
  (forall d, In d cells -> 0 <= fst d /\ 0 <= snd d) -> mask_data cells data = Ok out ->
  exists mask m s v i j, out = (mask, Num s, (Num v, i, j)) /\
    mask_ok (length data) (match data with r :: _ => length r | [] => O end) cells mask /\
    Qmean (values_inside (length data) (match data with r :: _ => length r | [] => O end) data mask) = Num m /\
    extremum_ok (length data) (match data with r :: _ => length r | [] => O end) data mask m s v i j.
Proof.
  intros R Hne Hn H. pose proof (mask_data_ok_within cells data out Hn H) as HW.
  set (ny := length data) in *. set (nx := match data with r :: _ => length r | [] => O end) in *.
  assert (0 < ny /\ 0 < nx)%nat as [P1 P2]. { destruct cells as [|c l]; [congruence|]. inversion HW as [|? ? [A1 A2] _]; subst. lia. }
  destruct (mask_data_spec ny nx cells data R P1 P2 HW) as [mask [HM HE]].
  destruct (Qmean (values_inside ny nx data mask)) as [|m] eqn:EM; [congruence|]. destruct HE as [s [v [i [j [HE1 HE2]]]]].
  rewrite H in HE1. injection HE1 as ->. exists mask, m, s, v, i, j. auto.
Qed.

Lemma data_in_contour_spec tree X Y field H W contour s v y x : rectangular H W X -> rectangular H W Y -> rectangular H W field ->
  data_in_contour tree X Y field contour = Ok (s, (v, y, x)) ->
  exists cells i j q sq vq xq yq, grid_cells tree X Y contour = Ok cells /\ s = Num sq /\ v = Num vq /\ x = Num xq /\ y = Num yq /\
    grid_point X Y i j (xq, yq) /\ at_ field i j = Some (Num q) /\
    ((sq = 0%Q /\ (vq == 0)%Q) \/ (sq = 1%Q /\ (vq == q)%Q /\ (0 < vq)%Q) \/ (sq = (-1)%Q /\ (vq == q)%Q /\ (vq < 0)%Q)) /\
    forall i' j' q', In (Z.of_nat i', Z.of_nat j') cells -> at_ field i' j' = Some (Num q') ->
      (sq = 1%Q -> (q' <= vq)%Q) /\ (sq = (-1)%Q -> (vq <= q')%Q).
Proof.
  intros RX RY RF E. unfold data_in_contour in E. destruct (grid_cells tree X Y contour) as [cells|] eqn:EC; [|discriminate]. cbn [bind] in E.
  destruct cells as [|c0 cl] eqn:Ecl; [discriminate|]. rewrite <- Ecl in *.
  pose proof (grid_cells_nonneg _ _ _ _ _ EC) as Hnn.
  destruct (window_spec (Z.of_nat (length X), Z.of_nat (width_of X)) Auto cells) as [lo [hi [Hext EW]]]; [rewrite Ecl; discriminate|].
  cbn zeta in EW. rewrite EW in E. cbn [bind fst snd] in E. clear EW.
  set (t := thresh_value Auto (fst hi - fst lo) (snd hi - snd lo)) in *.
  assert (Ht : 0 <= t). { unfold t, thresh_value. destruct (Z.leb_spec (Z.max (fst hi - fst lo) (snd hi - snd lo) / 2) 3); lia. }
  set (y0 := Z.max (fst lo - t) 0) in *. set (x0 := Z.max (snd lo - t) 0) in *.
  set (y1 := Z.min (fst hi + (t + 1)) (Z.of_nat (length X))) in *. set (x1 := Z.min (snd hi + (t + 1)) (Z.of_nat (width_of X))) in *.
  set (rel := map (fun c : Z * Z => (fst c - y0, snd c - x0)) cells) in *. set (data := slice2 y0 y1 x0 x1 field) in *.
  destruct (mask_data rel data) as [out|] eqn:EM; [|discriminate]. cbn [bind] in E.
  assert (Hrel : forall d, In d rel -> 0 <= fst d /\ 0 <= snd d).
  { intros d Hd. apply in_map_iff in Hd as [c [<- Hc]]. cbn [fst snd]. destruct Hext as [Hext _]. pose proof (Hext c Hc). pose proof (Hnn c Hc). unfold y0, x0. lia. }
  assert (RD : rectangular (length data) (match data with r :: _ => length r | [] => O end) data).
  { pose proof (slice2_rect H W y0 y1 x0 x1 field RF) as [D1 D2]. fold data in D1, D2. split; [reflexivity|]. destruct data as [|r g]; [constructor|].
    inversion D2 as [|? ? D3 D4]; subst. rewrite D3. exact D2. }
  destruct (mask_data_spec' rel data out RD) as [mask [m [sq [vq [i [j [-> [HM [Em HX]]]]]]]]]; auto.
  { unfold rel. rewrite Ecl. discriminate. }
  destruct (at_ (slice2 y0 y1 x0 x1 X) i j) as [xq|] eqn:AX; [|discriminate]. destruct (at_ (slice2 y0 y1 x0 x1 Y) i j) as [yq|] eqn:AY; [|discriminate].
  injection E as <- <- <- <-. apply at_slice2 in AX, AY.
  destruct (extremum_cases _ _ _ _ _ _ _ _ _ RD Em HX) as [Z0 [B [[q [[Vm Vd] Vq]] [Pp [Pn P0]]]]].
  unfold data in Vd. pose proof (at_slice2 _ _ _ _ _ _ _ _ Vd) as Vd'.
  exists cells, (Z.to_nat y0 + i)%nat, (Z.to_nat x0 + j)%nat, q, sq, vq, xq, yq.
  refine (conj eq_refl (conj eq_refl (conj eq_refl (conj eq_refl (conj eq_refl (conj (conj AX AY) (conj Vd' (conj _ _)))))))).
  - destruct HX as [Es _]. destruct (sign_cases m) as [[Hm Es']|[[Hm Es']|[Hm Es']]]; rewrite Es' in Es; subst sq.
    + left. split; [reflexivity|]. apply Z0, Hm.
    + right. left. split; [reflexivity|]. split; [apply Vq; lra|]. assert (In q (values_inside (length data) (match data with r :: _ => length r | [] => O end) data mask)).
      { apply values_inside_iff; [exact RD|]. exists i, j. split; assumption. }
      assert (Hmv : (m <= vq)%Q). { apply (mean_le_max _ _ _ Em). intros z Hz. apply values_inside_iff in Hz as [i' [j' Hz]]; [|exact RD]. apply (proj2 (Pp Hm) _ _ _ Hz). } lra.
    + right. right. split; [reflexivity|]. split; [apply Vq; lra|].
      assert (Hmv : (vq <= m)%Q). { apply (min_le_mean _ _ _ Em). intros z Hz. apply values_inside_iff in Hz as [i' [j' Hz]]; [|exact RD]. apply (proj2 (Pn Hm) _ _ _ Hz). } lra.
  - intros i' j' q' Hin Hf. destruct Hext as [Hext _]. pose proof (Hext _ Hin) as Hb. cbn [fst snd] in Hb.
    assert (Hr : In (Z.of_nat i' - y0, Z.of_nat j' - x0) rel) by (apply in_map_iff; exists (Z.of_nat i', Z.of_nat j'); auto).
    pose proof (mask_data_ok_within _ _ _ Hrel EM) as HW. unfold cells_within in HW. rewrite Forall_forall in HW. specialize (HW _ Hr). cbn [fst snd] in HW.
    set (a := Z.to_nat (Z.of_nat i' - y0)). set (b := Z.to_nat (Z.of_nat j' - x0)).
    assert (Ha : Z.of_nat a = Z.of_nat i' - y0) by (unfold a; lia). assert (Hb' : Z.of_nat b = Z.of_nat j' - x0) by (unfold b; lia).
    assert (VA : value_at data mask a b q').
    { split.
      - apply HM. split; [unfold in_window; cbn [fst snd]; lia|]. left. rewrite Ha, Hb'. exact Hr.
      - destruct (proj1 (rect_at _ _ data a b RD)) as [z Hz]; [lia|]. rewrite Hz. f_equal. unfold data in Hz. apply at_slice2 in Hz.
        replace (Z.to_nat y0 + a)%nat with i' in Hz by lia. replace (Z.to_nat x0 + b)%nat with j' in Hz by lia. congruence. }
    destruct HX as [Es _]. destruct (sign_cases m) as [[Hm Es']|[[Hm Es']|[Hm Es']]]; rewrite Es' in Es; subst sq; split; intro Hs; try discriminate.
    + apply (proj2 (Pp Hm) _ _ _ VA).
    + apply (proj2 (Pn Hm) _ _ _ VA).
Qed.

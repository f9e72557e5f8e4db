From Coq Require Import Reals Lra Lia.
From Verif Require Import M_Base M_Gauss M_Filter S_Filter.
Open Scope R_scope.

Lemma Rsum_cons x l : Rsum (x :: l) = x + Rsum l. Proof. reflexivity. Qed.
Lemma Rsum_nil : Rsum [] = 0. Proof. reflexivity. Qed.
Lemma Rmean_len l : Rmean l = if Nat.eqb (length l) 0 then None else Some (Rsum l / INR (length l)).
Proof. destruct l; reflexivity. Qed.
Lemma nanmean_none l : nanmean l = None <-> forall x, In x l -> x = None.
Proof.
  unfold nanmean. split.
  - induction l as [|[v|] l IH]; intros H x Hx; [destruct Hx|discriminate|]. destruct Hx as [<-|Hx]; [reflexivity|exact (IH H x Hx)].
  - induction l as [|[v|] l IH]; intro H; [reflexivity|discriminate (H _ (or_introl eq_refl))|]. apply IH. intros x Hx. apply H. right. exact Hx.
Qed.
Lemma nanmean_some l x : In (Some x) l -> exists m, nanmean l = Some m.
Proof. intro H. destruct (nanmean l) as [m|] eqn:E; [exists m; reflexivity|]. discriminate (proj1 (nanmean_none l) E _ H). Qed.
Lemma valid_sub m l : valid (map (fun v => osub v (Some m)) l) = map (fun x => x - m) (valid l).
Proof. induction l as [|[v|] l IH]; cbn [map valid osub]; [reflexivity|rewrite IH; reflexivity|exact IH]. Qed.
Lemma valid_sub_none l : valid (map (fun v => osub v None) l) = [].
Proof. induction l as [|[v|] l IH]; cbn [map valid osub]; auto. Qed.
Lemma sum_sub m l : Rsum (map (fun x => x - m) l) = Rsum l - INR (length l) * m.
Proof. induction l as [|x l IH]; [cbn; ring|]. cbn [map]. rewrite !Rsum_cons, IH. cbn [length]. rewrite S_INR. ring. Qed.
(** Subtracting the mean leaves a sum of 0. *)
Lemma centred_total l : total (map (fun v => osub v (nanmean l)) l) = 0.
Proof.
  unfold total. destruct (nanmean l) as [m|] eqn:E; [|rewrite valid_sub_none; reflexivity]. rewrite valid_sub, sum_sub. unfold nanmean in E. rewrite Rmean_len in E.
  destruct (Nat.eqb_spec (length (valid l)) 0) as [Z|Z]; [discriminate|]. assert (m = Rsum (valid l) / INR (length (valid l))) as -> by congruence. field. apply not_0_INR, Z.
Qed.
Lemma centred_mean l : nanmean (map (fun v => osub v (nanmean l)) l) = option_map (fun _ => 0) (nanmean l).
Proof.
  pose proof (centred_total l) as T. unfold total in T. destruct (nanmean l) as [m|] eqn:E; cbn [option_map].
  - unfold nanmean at 1. rewrite Rmean_len, valid_sub, map_length in *. unfold nanmean in E. rewrite Rmean_len in E. destruct (Nat.eqb_spec (length (valid l)) 0) as [Z|Z]; [discriminate|]. rewrite T. f_equal. unfold Rdiv. ring.
  - unfold nanmean. rewrite valid_sub_none. reflexivity.
Qed.
Lemma osub_zero v m : osub (osub v m) (option_map (fun _ => 0) m) = osub v m.
Proof. destruct v, m; cbn [osub option_map]; [f_equal; ring|reflexivity..]. Qed.
Lemma osub_none v m : (v <> None -> m <> None) -> (osub v m = None <-> v = None).
Proof. destruct v as [x|], m as [y|]; cbn [osub]; intro H; split; intro E; try reflexivity; try discriminate. exfalso. apply H; [discriminate|reflexivity]. Qed.
Lemma comb_sub a b x y m n : comb a b (osub x m) (osub y n) = osub (comb a b x y) (comb a b m n).
Proof. destruct x, y, m, n; cbn [comb osub]; try reflexivity. f_equal. ring. Qed.
(** The mean is linear over the same missing values. *)
Lemma mean_comb {K} a b (f g : K -> option R) idx : (forall k, In k idx -> (g k = None <-> f k = None)) ->
  nanmean (map (fun k => comb a b (f k) (g k)) idx) = comb a b (nanmean (map f idx)) (nanmean (map g idx)).
Proof.
  intro H. assert (L : length (valid (map (fun k => comb a b (f k) (g k)) idx)) = length (valid (map f idx)) /\ length (valid (map g idx)) = length (valid (map f idx)) /\
    Rsum (valid (map (fun k => comb a b (f k) (g k)) idx)) = a * Rsum (valid (map f idx)) + b * Rsum (valid (map g idx))).
  { induction idx as [|k idx IH]; [cbn; split; [reflexivity|split; [reflexivity|ring]]|]. destruct (IH (fun q Hq => H q (or_intror Hq))) as [L1 [L2 S]]. specialize (H k (or_introl eq_refl)).
    cbn [map]. destruct (f k) as [u|] eqn:Ef, (g k) as [v|] eqn:Eg; cbn [comb valid]; try (exfalso; destruct H as [H1 H2]; discriminate (H1 eq_refl) || discriminate (H2 eq_refl)).
    - cbn [length]. rewrite !Rsum_cons, L1, L2, S. split; [reflexivity|]. split; [reflexivity|ring].
    - auto. }
  destruct L as [L1 [L2 S]]. unfold nanmean. rewrite !Rmean_len, L1, L2, S. destruct (Nat.eqb_spec (length (valid (map f idx))) 0) as [Z|Z]; [reflexivity|]. cbn [comb]. f_equal. field. apply not_0_INR, Z.
Qed.

(** *** rows and columns *)
Lemma row_meridional d i : row (meridional d) i = map (fun v => osub v (nanmean (row d i))) (row d i).
Proof. unfold row. cbn [meridional map_field f_nx f_at]. rewrite map_map. reflexivity. Qed.
Lemma column_zonal d j : column (zonal d) j = map (fun v => osub v (nanmean (column d j))) (column d j).
Proof. unfold column. cbn [zonal map_field f_ny f_at]. rewrite map_map. reflexivity. Qed.
Lemma in_row d i j : (j < f_nx d)%nat -> In (f_at d i j) (row d i).
Proof. intro H. unfold row. apply in_map_iff. exists j. split; [reflexivity|]. apply in_seq. lia. Qed.
Lemma in_column d i j : (i < f_ny d)%nat -> In (f_at d i j) (column d j).
Proof. intro H. unfold column. apply in_map_iff. exists i. split; [reflexivity|]. apply in_seq. lia. Qed.
Lemma meridional_missing d : same_missing d (meridional d).
Proof.
  split; [reflexivity|]. split; [reflexivity|]. intros i j [_ Hj]. cbn [meridional map_field f_at]. apply osub_none. intros N Z. apply N. exact (proj1 (nanmean_none _) Z _ (in_row d i j Hj)).
Qed.
Lemma zonal_missing d : same_missing d (zonal d).
Proof.
  split; [reflexivity|]. split; [reflexivity|]. intros i j [Hi _]. cbn [zonal map_field f_at]. apply osub_none. intros N Z. apply N. exact (proj1 (nanmean_none _) Z _ (in_column d i j Hi)).
Qed.
Lemma meridional_twice d : same_field (meridional d) (meridional (meridional d)).
Proof. split; [reflexivity|]. split; [reflexivity|]. intros i j _. cbn [meridional map_field f_at]. fold (meridional d). rewrite row_meridional, centred_mean. apply osub_zero. Qed.
Lemma zonal_twice d : same_field (zonal d) (zonal (zonal d)).
Proof. split; [reflexivity|]. split; [reflexivity|]. intros i j _. cbn [zonal map_field f_at]. fold (zonal d). rewrite column_zonal, centred_mean. apply osub_zero. Qed.
Lemma meridional_linear a b d d' : same_missing d d' -> same_field (combination a b (meridional d) (meridional d')) (meridional (combination a b d d')).
Proof.
  intros [Ey [Ex H]]. split; [reflexivity|]. split; [reflexivity|]. intros i j [Hi Hj]. cbn [meridional combination map_field f_at f_ny f_nx] in *. rewrite comb_sub. f_equal.
  unfold row. cbn [f_nx f_at]. rewrite Ex. apply mean_comb. intros k Hk. apply H. apply in_seq in Hk. split; [exact Hi|lia].
Qed.
Lemma zonal_linear a b d d' : same_missing d d' -> same_field (combination a b (zonal d) (zonal d')) (zonal (combination a b d d')).
Proof.
  intros [Ey [Ex H]]. split; [reflexivity|]. split; [reflexivity|]. intros i j [Hi Hj]. cbn [zonal combination map_field f_at f_ny f_nx] in *. rewrite comb_sub. f_equal.
  unfold column. cbn [f_ny f_at]. rewrite Ey. apply mean_comb. intros k Hk. apply H. apply in_seq in Hk. split; [lia|exact Hj].
Qed.

(** *** windows *)
Definition offs (h : nat) : list Z := map (fun n => (Z.of_nat n - Z.of_nat h)%Z) (seq 0 (2 * h + 1)).
Lemma in_offs h z : In z (offs h) <-> (- Z.of_nat h <= z <= Z.of_nat h)%Z.
Proof.
  unfold offs. rewrite in_map_iff. split.
  - intros [n [<- Hn]]. apply in_seq in Hn. lia.
  - intro H. exists (Z.to_nat (z + Z.of_nat h)). split; [lia|]. apply in_seq. lia.
Qed.
Lemma in_window h o : In o (window h) <-> (- Z.of_nat h <= fst o <= Z.of_nat h)%Z /\ (- Z.of_nat h <= snd o <= Z.of_nat h)%Z.
Proof.
  unfold window. fold (offs h). rewrite in_flat_map. split.
  - intros [di [Hi H]]. apply in_map_iff in H as [dj [<- Hj]]. apply in_offs in Hi, Hj. auto.
  - intros [Hi Hj]. exists (fst o). split; [apply in_offs; exact Hi|]. apply in_map_iff. exists (snd o). split; [destruct o; reflexivity|apply in_offs; exact Hj].
Qed.
Lemma window_length h : length (window h) = ((2 * h + 1) * (2 * h + 1))%nat.
Proof.
  unfold window. fold (offs h). assert (L : length (offs h) = (2 * h + 1)%nat) by (unfold offs; rewrite map_length, seq_length; reflexivity).
  assert (G : forall l : list Z, length (flat_map (fun di => map (fun dj => (di, dj)) (offs h)) l) = (length l * (2 * h + 1))%nat).
  { induction l as [|z l IH]; [reflexivity|]. cbn [flat_map]. rewrite app_length, map_length, L, IH. cbn [length]. lia. }
  rewrite G, L. reflexivity.
Qed.
Lemma padded_in d i j : (i < f_ny d)%nat -> (j < f_nx d)%nat -> padded d (Z.of_nat i) (Z.of_nat j) = f_at d i j.
Proof.
  intros Hi Hj. unfold padded. rewrite (proj2 (Z.leb_le 0 (Z.of_nat i))), (proj2 (Z.ltb_lt (Z.of_nat i) _)), (proj2 (Z.leb_le 0 (Z.of_nat j))), (proj2 (Z.ltb_lt (Z.of_nat j) _)) by lia.
  cbn [andb]. rewrite !Nat2Z.id. reflexivity.
Qed.
Lemma uniform_ok kernel d : (0 <= kernel)%Z -> exists d', uniform kernel d = Ok d' /\ f_ny d' = f_ny d /\ f_nx d' = f_nx d /\
  forall i j, f_at d' i j = osub (f_at d i j) (smoothed (Z.to_nat (side kernel / 2)) d i j).
Proof.
  intro H. unfold uniform. assert (S : (0 <= side kernel)%Z) by (unfold side; destruct (Z.even kernel); lia). rewrite (proj2 (Z.ltb_ge (side kernel) 0)) by exact S.
  eexists. split; [reflexivity|]. split; [reflexivity|]. split; reflexivity.
Qed.
Lemma side_odd kernel : (0 <= kernel)%Z -> side kernel = (2 * (side kernel / 2) + 1)%Z /\ (kernel <= side kernel <= kernel + 1)%Z /\ (0 <= side kernel / 2)%Z.
Proof.
  intro H. unfold side. destruct (Z.even kernel) eqn:E.
  - apply Zeven_bool_iff in E. destruct (Zeven_ex kernel E) as [k ->]. replace ((2 * k + 1) / 2)%Z with k by (rewrite (Z.add_comm (2 * k)); rewrite (Z.mul_comm 2 k); rewrite Z.div_add by lia; reflexivity). lia.
  - assert (O : Zodd kernel) by (apply Zodd_bool_iff; rewrite Zodd_even_bool, E; reflexivity). destruct (Zodd_ex kernel O) as [k ->]. replace ((2 * k + 1) / 2)%Z with k by (rewrite (Z.add_comm (2 * k)); rewrite (Z.mul_comm 2 k); rewrite Z.div_add by lia; reflexivity). lia.
Qed.
Lemma smoothed_some h d i j : cell d i j -> f_at d i j <> None -> smoothed h d i j <> None.
Proof.
  intros [Hi Hj] N Z. apply N. unfold smoothed in Z. pose proof (proj1 (nanmean_none _) Z) as A. apply A. apply in_map_iff. exists (0%Z, 0%Z). cbn [fst snd]. rewrite !Z.add_0_r. split; [apply padded_in; assumption|].
  apply in_window. cbn [fst snd]. lia.
Qed.
Lemma smoothed_const h d i j c : cell d i j -> (forall i' j', cell d i' j' -> f_at d i' j' = Some c) -> fits h d i j -> smoothed h d i j = Some c.
Proof.
  intros Hc H [F1 [F2 [F3 F4]]]. unfold smoothed. assert (A : forall x, In x (map (fun o => padded d (Z.of_nat i + fst o) (Z.of_nat j + snd o)) (window h)) -> x = Some c).
  { intros x Hx. apply in_map_iff in Hx as [o [<- Ho]]. apply in_window in Ho as [O1 O2]. replace (Z.of_nat i + fst o)%Z with (Z.of_nat (Z.to_nat (Z.of_nat i + fst o))) by lia. replace (Z.of_nat j + snd o)%Z with (Z.of_nat (Z.to_nat (Z.of_nat j + snd o))) by lia.
    rewrite padded_in by lia. apply H. split; lia. }
  assert (NE : map (fun o => padded d (Z.of_nat i + fst o) (Z.of_nat j + snd o)) (window h) <> []).
  { intro Z. apply (f_equal (@length _)) in Z. rewrite map_length, window_length in Z. cbn [length] in Z. lia. }
  revert A NE. generalize (map (fun o => padded d (Z.of_nat i + fst o) (Z.of_nat j + snd o)) (window h)). intros l A NE. unfold nanmean. rewrite Rmean_len.
  assert (L : length (valid l) = length l /\ Rsum (valid l) = INR (length l) * c).
  { clear NE. induction l as [|x l IH]; [cbn; split; [reflexivity|ring]|]. rewrite (A x (or_introl eq_refl)). destruct (IH (fun q Hq => A q (or_intror Hq))) as [L S]. cbn [valid length]. rewrite Rsum_cons, L, S, S_INR. split; [reflexivity|ring]. }
  destruct L as [L S]. rewrite L, S. destruct (Nat.eqb_spec (length l) 0) as [Z|Z]; [destruct l; [contradiction|discriminate]|]. f_equal. field. apply not_0_INR, Z.
Qed.
(** *** the border *)
Lemma count_range a b N : length (filter (fun n => (Nat.leb a n && Nat.ltb n b)%bool) (seq 0 N)) = (Nat.min N b - a)%nat.
Proof.
  induction N as [|N IH]; [reflexivity|]. rewrite seq_S, filter_app, app_length, IH. cbn [plus filter]. destruct (Nat.leb_spec a N), (Nat.ltb_spec N b); cbn [andb length]; lia.
Qed.
Definition hits (n h i : nat) : list Z := filter (fun o => (0 <=? Z.of_nat i + o)%Z && (Z.of_nat i + o <? Z.of_nat n)%Z)%bool (offs h).
Lemma filter_map {A B} (f : B -> bool) (g : A -> B) l : filter f (map g l) = map g (filter (fun x => f (g x)) l).
Proof. induction l as [|x l IH]; [reflexivity|]. cbn [map filter]. rewrite IH. destruct (f (g x)); reflexivity. Qed.
Lemma hits_length n h i : (i < n)%nat -> length (hits n h i) = overlap n h i.
Proof.
  intro Hi. unfold hits, offs. rewrite filter_map, map_length. rewrite (filter_ext _ (fun k => (Nat.leb (h - i) k && Nat.ltb k (n + h - i))%bool)).
  - rewrite count_range. unfold overlap. lia.
  - intro k. apply eq_true_iff_eq. rewrite !andb_true_iff, Z.leb_le, Z.ltb_lt, Nat.leb_le, Nat.ltb_lt. lia.
Qed.
Lemma smoothed_border h d i j c : cell d i j -> (forall i' j', cell d i' j' -> f_at d i' j' = Some c) ->
  smoothed h d i j = Some (c * (INR (inside h d i j) / INR ((2 * h + 1) * (2 * h + 1)))).
Proof.
  intros [Hi Hj] H. unfold smoothed.
  assert (P : forall di dj, padded d (Z.of_nat i + di) (Z.of_nat j + dj) =
     Some (if ((0 <=? Z.of_nat i + di)%Z && (Z.of_nat i + di <? Z.of_nat (f_ny d))%Z)%bool then if ((0 <=? Z.of_nat j + dj)%Z && (Z.of_nat j + dj <? Z.of_nat (f_nx d))%Z)%bool then c else 0 else 0)).
  { intros di dj. unfold padded. destruct (Z.leb_spec 0 (Z.of_nat i + di)), (Z.ltb_spec (Z.of_nat i + di) (Z.of_nat (f_ny d))); cbn [andb]; try reflexivity.
    destruct (Z.leb_spec 0 (Z.of_nat j + dj)), (Z.ltb_spec (Z.of_nat j + dj) (Z.of_nat (f_nx d))); cbn [andb]; try reflexivity. apply H. split; lia. }
  assert (V : forall l : list (Z * Z), length (valid (map (fun o => padded d (Z.of_nat i + fst o) (Z.of_nat j + snd o)) l)) = length l).
  { induction l as [|o l IH]; [reflexivity|]. cbn [map]. rewrite P. cbn [valid length]. rewrite IH. reflexivity. }
  unfold nanmean. rewrite Rmean_len, V, window_length. destruct (Nat.eqb_spec ((2 * h + 1) * (2 * h + 1)) 0) as [Z|Z]; [lia|]. f_equal.
  assert (R1 : forall di l, Rsum (valid (map (fun dj => padded d (Z.of_nat i + di) (Z.of_nat j + dj)) l)) =
    if ((0 <=? Z.of_nat i + di)%Z && (Z.of_nat i + di <? Z.of_nat (f_ny d))%Z)%bool then c * INR (length (filter (fun o => (0 <=? Z.of_nat j + o)%Z && (Z.of_nat j + o <? Z.of_nat (f_nx d))%Z)%bool l)) else 0).
  { intros di l. induction l as [|dj l IH]; [cbn [map valid filter length INR]; rewrite Rsum_nil; destruct (_ && _)%bool; ring|]. cbn [map]. rewrite P. cbn [valid]. rewrite Rsum_cons, IH. cbn [filter].
    destruct ((0 <=? Z.of_nat i + di)%Z && _)%bool; [|ring]. destruct ((0 <=? Z.of_nat j + dj)%Z && _)%bool; [cbn [length]; rewrite S_INR|]; ring. }
  assert (R2 : forall l, Rsum (valid (map (fun o => padded d (Z.of_nat i + fst o) (Z.of_nat j + snd o)) (flat_map (fun di => map (fun dj => (di, dj)) (offs h)) l))) =
    c * INR (length (filter (fun o => (0 <=? Z.of_nat i + o)%Z && (Z.of_nat i + o <? Z.of_nat (f_ny d))%Z)%bool l)) * INR (length (hits (f_nx d) h j))).
  { assert (VA : forall u v, valid (app u v) = app (valid u) (valid v)) by (induction u as [|[x|] u IH]; intro v; cbn [app valid]; [reflexivity|rewrite IH; reflexivity|apply IH]).
    assert (SA : forall u v, Rsum (app u v) = Rsum u + Rsum v) by (induction u as [|x u IH]; intro v; cbn [app]; [rewrite Rsum_nil; ring|rewrite !Rsum_cons, IH; ring]).
    induction l as [|di l IH]; [cbn [flat_map map valid filter length INR]; rewrite Rsum_nil; ring|]. cbn [flat_map]. rewrite map_app, VA, SA, IH, map_map. cbn [fst snd]. rewrite R1. fold (hits (f_nx d) h j). cbn [filter].
    destruct ((0 <=? Z.of_nat i + di)%Z && _)%bool; [cbn [length]; rewrite S_INR|]; ring. }
  unfold window. fold (offs h). rewrite R2. fold (hits (f_ny d) h i). rewrite !hits_length by assumption. unfold inside. rewrite (mult_INR (overlap (f_ny d) h i)). unfold Rdiv. ring.
Qed.
Lemma smoothed_shift h d d' i j i' j' : fits h d i j -> fits h d' i' j' ->
  (forall di dj, (di <= 2 * h)%nat -> (dj <= 2 * h)%nat -> f_at d' (i' - h + di) (j' - h + dj) = f_at d (i - h + di) (j - h + dj)) -> smoothed h d' i' j' = smoothed h d i j.
Proof.
  intros [F1 [F2 [F3 F4]]] [G1 [G2 [G3 G4]]] H. unfold smoothed. f_equal. apply map_ext_in. intros o Ho. apply in_window in Ho as [O1 O2].
  replace (Z.of_nat i + fst o)%Z with (Z.of_nat (i - h + Z.to_nat (fst o + Z.of_nat h))) by lia. replace (Z.of_nat j + snd o)%Z with (Z.of_nat (j - h + Z.to_nat (snd o + Z.of_nat h))) by lia.
  replace (Z.of_nat i' + fst o)%Z with (Z.of_nat (i' - h + Z.to_nat (fst o + Z.of_nat h))) by lia. replace (Z.of_nat j' + snd o)%Z with (Z.of_nat (j' - h + Z.to_nat (snd o + Z.of_nat h))) by lia.
  rewrite !padded_in by lia. apply H; lia.
Qed.
Lemma smoothed_linear a b h d d' i j : same_missing d d' -> smoothed h (combination a b d d') i j = comb a b (smoothed h d i j) (smoothed h d' i j).
Proof.
  intros [Ey [Ex H]]. unfold smoothed. rewrite <- (mean_comb a b (fun o => padded d (Z.of_nat i + fst o) (Z.of_nat j + snd o))).
  - f_equal. apply map_ext. intro o. unfold padded. cbn [combination f_ny f_nx f_at]. rewrite Ey, Ex. destruct (_ && _)%bool; [reflexivity|]. cbn [comb]. f_equal. ring.
  - intros o _. unfold padded. rewrite Ey, Ex. destruct (Z.leb_spec 0 (Z.of_nat i + fst o)), (Z.ltb_spec (Z.of_nat i + fst o) (Z.of_nat (f_ny d))), (Z.leb_spec 0 (Z.of_nat j + snd o)), (Z.ltb_spec (Z.of_nat j + snd o) (Z.of_nat (f_nx d))); cbn [andb]; try tauto.
    apply H. split; lia.
Qed.
(** *** a single cell *)
Lemma smoothed_spike h d i0 j0 x i j : cell d i0 j0 -> cell d i j -> (forall i' j', cell d i' j' -> f_at d i' j' = Some (if (Nat.eqb i' i0 && Nat.eqb j' j0)%bool then x else 0)) ->
  smoothed h d i j = Some (if (Nat.leb i (i0 + h) && Nat.leb i0 (i + h) && Nat.leb j (j0 + h) && Nat.leb j0 (j + h))%bool then x / INR ((2 * h + 1) * (2 * h + 1)) else 0).
Proof.
  intros [Hi0 Hj0] [Hi Hj] H. unfold smoothed. set (a := (Z.of_nat i0 - Z.of_nat i)%Z). set (b := (Z.of_nat j0 - Z.of_nat j)%Z).
  assert (P : forall di dj, padded d (Z.of_nat i + di) (Z.of_nat j + dj) = Some (if (Z.eqb di a) then if Z.eqb dj b then x else 0 else 0)).
  { intros di dj. unfold padded. destruct (Z.leb_spec 0 (Z.of_nat i + di)), (Z.ltb_spec (Z.of_nat i + di) (Z.of_nat (f_ny d))), (Z.leb_spec 0 (Z.of_nat j + dj)), (Z.ltb_spec (Z.of_nat j + dj) (Z.of_nat (f_nx d))); cbn [andb];
      try (destruct (Z.eqb_spec di a); [destruct (Z.eqb_spec dj b); [unfold a, b in *; exfalso; lia|reflexivity]|reflexivity]).
    rewrite H by (split; lia). f_equal. destruct (Nat.eqb_spec (Z.to_nat (Z.of_nat i + di)) i0), (Z.eqb_spec di a); cbn [andb]; unfold a, b in *; try (exfalso; lia); try reflexivity.
    destruct (Nat.eqb_spec (Z.to_nat (Z.of_nat j + dj)) j0), (Z.eqb_spec dj (Z.of_nat j0 - Z.of_nat j)); try (exfalso; lia); reflexivity. }
  assert (V : forall l : list (Z * Z), length (valid (map (fun o => padded d (Z.of_nat i + fst o) (Z.of_nat j + snd o)) l)) = length l).
  { induction l as [|o l IH]; [reflexivity|]. cbn [map]. rewrite P. cbn [valid length]. rewrite IH. reflexivity. }
  unfold nanmean. rewrite Rmean_len, V, window_length. destruct (Nat.eqb_spec ((2 * h + 1) * (2 * h + 1)) 0) as [Z|Z]; [lia|]. f_equal.
  assert (VA : forall u v, valid (app u v) = app (valid u) (valid v)) by (induction u as [|[y|] u IH]; intro v; cbn [app valid]; [reflexivity|rewrite IH; reflexivity|apply IH]).
  assert (SA : forall u v, Rsum (app u v) = Rsum u + Rsum v) by (induction u as [|y u IH]; intro v; cbn [app]; [rewrite Rsum_nil; ring|rewrite !Rsum_cons, IH; ring]).
  assert (R1 : forall di l, Rsum (valid (map (fun dj => padded d (Z.of_nat i + di) (Z.of_nat j + dj)) l)) = if Z.eqb di a then x * INR (length (filter (Z.eqb b) l)) else 0).
  { intros di l. induction l as [|dj l IH]; [cbn [map valid filter length INR]; rewrite Rsum_nil; destruct (Z.eqb di a); ring|]. cbn [map]. rewrite P. cbn [valid]. rewrite Rsum_cons, IH. cbn [filter]. rewrite (Z.eqb_sym b dj).
    destruct (Z.eqb di a); [|ring]. destruct (Z.eqb dj b); [cbn [length]; rewrite S_INR|]; ring. }
  assert (R2 : forall l, Rsum (valid (map (fun o => padded d (Z.of_nat i + fst o) (Z.of_nat j + snd o)) (flat_map (fun di => map (fun dj => (di, dj)) (offs h)) l))) = x * INR (length (filter (Z.eqb a) l)) * INR (length (filter (Z.eqb b) (offs h)))).
  { induction l as [|di l IH]; [cbn [flat_map map valid filter length INR]; rewrite Rsum_nil; ring|]. cbn [flat_map]. rewrite map_app, VA, SA, IH, map_map. cbn [fst snd]. rewrite R1. cbn [filter]. rewrite (Z.eqb_sym a di).
    destruct (Z.eqb di a); [cbn [length]; rewrite S_INR|]; ring. }
  assert (C : forall z, length (filter (Z.eqb z) (offs h)) = if ((- Z.of_nat h <=? z)%Z && (z <=? Z.of_nat h)%Z)%bool then 1%nat else 0%nat).
  { intro z. unfold offs. rewrite filter_map, map_length. destruct (Z.leb_spec (- Z.of_nat h) z) as [L|L]; cbn [andb].
    - rewrite (filter_ext _ (fun k => (Nat.leb (Z.to_nat (z + Z.of_nat h)) k && Nat.ltb k (Z.to_nat (z + Z.of_nat h) + 1))%bool)).
      + rewrite count_range. destruct (Z.leb_spec z (Z.of_nat h)); lia.
      + intro k. apply eq_true_iff_eq. rewrite andb_true_iff, Z.eqb_eq, Nat.leb_le, Nat.ltb_lt. lia.
    - rewrite (filter_ext _ (fun k => (Nat.leb 1 k && Nat.ltb k 0)%bool)); [rewrite count_range; lia|]. intro k. apply eq_true_iff_eq. rewrite andb_true_iff, Z.eqb_eq, Nat.leb_le, Nat.ltb_lt. lia. }
  unfold window. fold (offs h). rewrite R2, !C. unfold a, b.
  destruct (Z.leb_spec (- Z.of_nat h) (Z.of_nat i0 - Z.of_nat i)), (Z.leb_spec (Z.of_nat i0 - Z.of_nat i) (Z.of_nat h)), (Z.leb_spec (- Z.of_nat h) (Z.of_nat j0 - Z.of_nat j)), (Z.leb_spec (Z.of_nat j0 - Z.of_nat j) (Z.of_nat h)),
    (Nat.leb_spec i (i0 + h)), (Nat.leb_spec i0 (i + h)), (Nat.leb_spec j (j0 + h)), (Nat.leb_spec j0 (j + h)); try (exfalso; lia); cbn [andb]; cbn [INR]; unfold Rdiv; ring.
Qed.

(** The table functions only look at identifiers, times, indices and five of the columns: a change of the other columns passes through them. *)
From Verif Require Import M_Base M_Tables.
Open Scope Z_scope.

Definition rmap {A B} (f : A -> B) (x : res A) : res B := match x with Ok a => Ok (f a) | Err e => Err e end.
Section Map.
Variable h : cols -> cols.
Definition hrow (r : row) : row := mkRow (r_id r) (r_time r) (r_idx r) (h (r_cols r)).
Definition hframe (f : frame) : frame := mkFrame (map hrow (rows f)) (ids f).
Hypothesis Hy : forall c, maxima_y (h c) = maxima_y c.
Hypothesis Hx : forall c, maxima_x (h c) = maxima_x c.
Hypothesis Hr : forall c, radius_eddy (h c) = radius_eddy c.
Hypothesis He : forall c, contour_ellipse_error (h c) = contour_ellipse_error c.
Hypothesis Hg : forall c, contour_gaussian_error (h c) = contour_gaussian_error c.

Lemma sequence_map {A B} (f : A -> B) l : sequence (map (option_map f) l) = option_map (map f) (sequence l).
Proof. induction l as [|[a|] l IH]; cbn; [reflexivity| |reflexivity]. rewrite IH. destruct (sequence l); reflexivity. Qed.
Lemma map_proj {B} (p : row -> B) rs : (forall r, p (hrow r) = p r) -> map p (map hrow rs) = map p rs.
Proof. intro H. rewrite map_map. apply map_ext. exact H. Qed.
Lemma filter_proj (p : row -> bool) rs : (forall r, p (hrow r) = p r) -> filter p (map hrow rs) = map hrow (filter p rs).
Proof. intro H. induction rs as [|r rs IH]; cbn; [reflexivity|]. rewrite H. destruct (p r); cbn; rewrite IH; reflexivity. Qed.
Lemma existsb_proj (p : row -> bool) rs : (forall r, p (hrow r) = p r) -> existsb p (map hrow rs) = existsb p rs.
Proof. intro H. induction rs as [|r rs IH]; cbn; [reflexivity|]. rewrite H, IH. reflexivity. Qed.
Lemma isort_map le rs : (forall a b, le (hrow a) (hrow b) = le a b) -> isort le (map hrow rs) = map hrow (isort le rs).
Proof.
  intro H. induction rs as [|r rs IH]; cbn; [reflexivity|]. rewrite IH. generalize (isort le rs) as l. induction l as [|x l IHl]; cbn; [reflexivity|].
  rewrite H. destruct (le r x); cbn; [reflexivity|]. rewrite IHl. reflexivity.
Qed.
Lemma used_map rs : used (map hrow rs) = used rs.
Proof. unfold used. rewrite map_proj by reflexivity. reflexivity. Qed.
Lemma set_index_map rs : set_index (map hrow rs) = hframe (set_index rs).
Proof. unfold set_index, hframe. rewrite used_map. reflexivity. Qed.
Lemma empty_map f : empty (hframe f) = empty f.
Proof. unfold empty, hframe. destruct f as [[|r rs] i]; reflexivity. Qed.
Lemma set_levels_map new f : set_levels new (hframe f) = rmap hframe (set_levels new f).
Proof.
  unfold set_levels, hframe. cbn [rows ids]. rewrite map_map.
  rewrite (map_ext _ (fun r => option_map hrow (relabel_code (ids f) new r))).
  - rewrite <- (map_map (relabel_code (ids f) new) (option_map hrow)), sequence_map. destruct (sequence _); reflexivity.
  - intro r. unfold relabel_code. cbn [hrow r_id]. destruct (index_of (r_id r) (ids f)); [|reflexivity]. destruct (nth_error new n); reflexivity.
Qed.
Lemma rename_map k v f : rename_id k v (hframe f) = hframe (rename_id k v f).
Proof.
  unfold rename_id. cbn [rows hframe]. rewrite <- set_index_map. f_equal. rewrite !map_map. apply map_ext. intro r. cbn [hrow r_id]. destruct (r_id r =? k); reflexivity.
Qed.
Lemma drop_map ks f : drop_ids ks (hframe f) = rmap hframe (drop_ids ks f).
Proof.
  unfold drop_ids. cbn [rows hframe ids]. rewrite existsb_proj by reflexivity. destruct (existsb _ (rows f)); [|reflexivity]. cbn [rmap]. rewrite filter_proj by reflexivity. reflexivity.
Qed.
Lemma xs0_map f : xs_index0 (hframe f) = rmap (map hrow) (xs_index0 f).
Proof. unfold xs_index0. cbn [rows hframe]. rewrite filter_proj by reflexivity. destruct (filter _ (rows f)); reflexivity. Qed.
Lemma xsid0_map k f : xs_id_index0 k (hframe f) = rmap (map hrow) (xs_id_index0 k f).
Proof. unfold xs_id_index0. cbn [rows hframe]. rewrite filter_proj by reflexivity. destruct (filter _ (rows f)); reflexivity. Qed.
Lemma loc_map k f : loc_check k (hframe f) = loc_check k f.
Proof. unfold loc_check. cbn [rows hframe]. rewrite existsb_proj by reflexivity. reflexivity. Qed.
Lemma coord_map r : coord (hrow r) = coord r.
Proof. unfold coord. cbn [r_cols hrow]. rewrite Hy, Hx. reflexivity. Qed.
Lemma concat_map_ keep p n : concat keep (hframe p) (hframe n) = hframe (concat keep p n).
Proof. unfold concat, hframe. cbn [rows ids]. rewrite <- map_app, used_map. reflexivity. Qed.
Lemma merge_map keep p n : merge_reindex keep (hframe p) (hframe n) = rmap hframe (merge_reindex keep p n).
Proof.
  unfold merge_reindex. rewrite concat_map_. cbn [rows ids hframe]. rewrite set_index_map, set_levels_map. destruct (set_levels _ _) as [f|e]; [|reflexivity]. cbn [rmap bind].
  cbn [rows hframe ids]. rewrite isort_map by reflexivity. reflexivity.
Qed.
Lemma counter_map p p' n : ids p' = ids p -> update_counter p' (hframe n) = rmap (fun x => (hframe (fst x), snd x)) (update_counter p n).
Proof. intro H. unfold update_counter. cbn [ids hframe]. rewrite H. destruct (zmax (ids p)); [|reflexivity]. rewrite set_levels_map. destruct (set_levels _ n); reflexivity. Qed.
Lemma rename_time_map index nearest prev : forall cur, rename_eddies_in_time (hframe cur) index nearest prev = rmap hframe (rename_eddies_in_time cur index nearest prev).
Proof.
  induction nearest as [|d t IH]; intro cur; cbn [rename_eddies_in_time]; [reflexivity|]. destruct (nth_error index d); [|reflexivity]. rewrite rename_map. apply IH.
Qed.
Lemma better_map p index nearest prev : forall n rep, better_loop (hframe p) (hframe n) index nearest prev rep = rmap (fun x => (hframe (fst x), snd x)) (better_loop p n index nearest prev rep).
Proof.
  induction nearest as [|d t IH]; intros n rep; cbn [better_loop]; [reflexivity|]. cbv zeta. destruct (nth_error index d) as [kn|]; [|reflexivity].
  rewrite !loc_map, !xsid0_map. destruct (loc_check (Z.of_nat kn) p); cbn [bind]; [|reflexivity]. destruct (loc_check _ n); cbn [bind]; [|reflexivity].
  destruct (xs_id_index0 _ p) as [pe|]; cbn [bind rmap]; [|reflexivity]. destruct (xs_id_index0 _ n) as [ce|]; cbn [bind rmap]; [|reflexivity].
  rewrite !(map_proj (fun r => contour_ellipse_error (r_cols r))), !(map_proj (fun r => contour_gaussian_error (r_cols r))) by (intro; cbn [hrow r_cols]; auto).
  destruct (array_gt _ _) as [g1|]; cbn [bind]; [|reflexivity]. destruct (if g1 then _ else _) as [g2|]; cbn [bind]; [|reflexivity].
  destruct g2; [rewrite rename_map; apply IH|]. rewrite drop_map. destruct (drop_ids _ n); cbn [rmap bind]; [apply IH|reflexivity].
Qed.
Lemma update_better_map p n index nearest : update_better_eddy (hframe p) (hframe n) index nearest = rmap (fun x => (hframe (fst x), hframe (snd x))) (update_better_eddy p n index nearest).
Proof.
  unfold update_better_eddy. rewrite (counter_map p) by reflexivity. destruct (update_counter p n) as [[n1 prev]|]; cbn [rmap bind fst snd]; [|reflexivity].
  rewrite better_map. destruct (better_loop p n1 index nearest prev []) as [[n2 rep]|]; cbn [rmap bind fst snd]; [|reflexivity].
  destruct rep; [reflexivity|]. rewrite drop_map. destruct (drop_ids _ p); reflexivity.
Qed.

Section Query.
Variable query : list (Q * Q) -> list (Q * Q) -> list (Q * nat).
(** The nearest eddies, when the first table has the same positions *)
Lemma nearest_map p p' n : rmap (map coord) (xs_index0 p') = rmap (map coord) (xs_index0 p) -> detect_nearest query p' (hframe n) = detect_nearest query p n.
Proof.
  intro H. unfold detect_nearest. rewrite xs0_map. destruct (xs_index0 p') as [rp'|e'], (xs_index0 p) as [rp|e]; cbn [rmap bind] in *; try discriminate; [|injection H as ->; reflexivity].
  injection H as H. destruct (xs_index0 n) as [rn|e]; cbn [rmap bind]; [|reflexivity].
  rewrite H, (map_proj coord) by apply coord_map. rewrite (map_proj (fun r => radius_eddy (r_cols r))) by (intro; cbn [hrow r_cols]; auto). reflexivity.
Qed.
Lemma xs0_coord f : rmap (map coord) (xs_index0 (hframe f)) = rmap (map coord) (xs_index0 f).
Proof. rewrite xs0_map. destruct (xs_index0 f); cbn [rmap]; [rewrite (map_proj coord) by apply coord_map|]; reflexivity. Qed.
Lemma level_loop_map keep lvs : forall joint, level_loop query keep (hframe joint) (map (rmap hframe) lvs) = rmap hframe (level_loop query keep joint lvs).
Proof.
  induction lvs as [|lv lvs IH]; intro joint; cbn [level_loop map]; [reflexivity|]. destruct lv as [cur|]; cbn [rmap bind]; [|reflexivity]. rewrite !empty_map.
  destruct (empty cur); [apply IH|]. destruct (empty joint); [apply IH|].
  rewrite (nearest_map joint) by apply xs0_coord. destruct (detect_nearest query joint cur) as [[ix nr]|]; cbn [bind rmap]; [|reflexivity].
  rewrite update_better_map. destruct (update_better_eddy joint cur ix nr) as [[j c]|]; cbn [bind rmap fst snd]; [|reflexivity].
  rewrite merge_map. destruct (merge_reindex keep j c); cbn [bind rmap]; [apply IH|reflexivity].
Qed.

(** The eddies a new snapshot is compared with: positions and identifiers *)
Lemma last_same (p : cols -> num) l : (forall c, p (h c) = p c) -> map p (map h l) = map p l.
Proof. intro H. rewrite map_map. apply map_ext. exact H. Qed.
Lemma loc_list_map ks rs : loc_list ks (map hrow rs) = rmap (map hrow) (loc_list ks rs).
Proof.
  induction ks as [|k ks IH]; cbn [loc_list]; [reflexivity|]. rewrite filter_proj by reflexivity. destruct (filter _ rs) as [|r l]; [reflexivity|]. cbn [map]. rewrite IH. destruct (loc_list ks rs); cbn [bind rmap]; [|reflexivity].
  change (hrow r :: map hrow l) with (map hrow (r :: l)). rewrite <- map_app. reflexivity.
Qed.
Lemma max_times_map rs : max_times (map hrow rs) = max_times rs.
Proof. unfold max_times. rewrite used_map. apply map_ext. intro k. rewrite filter_proj, (map_proj r_time) by reflexivity. reflexivity. Qed.
Definition key (r : row) : Z * Z * Z * option (Q * Q) := (r_id r, r_time r, r_idx r, coord r).
Lemma group_map ts rs : rmap (map key) (group_last ts (map hrow rs)) = rmap (map key) (group_last ts rs).
Proof.
  unfold group_last. rewrite used_map.
  set (F := fun (g : list row) (k i : Z) => option_map (fun t => mkRow k t i (last_cols (map r_cols (filter (fun r => r_idx r =? i) g)))) (if k <? 0 then None else nth_error ts (Z.to_nat k))).
  assert (E : forall g k i, option_map key (F (map hrow g) k i) = option_map key (F g k i)).
  { intros g k i. unfold F. destruct (if k <? 0 then None else nth_error ts (Z.to_nat k)); [|reflexivity]. cbn [option_map]. f_equal. unfold key, coord. cbn [r_id r_time r_idx r_cols last_cols maxima_y maxima_x].
    rewrite filter_proj by reflexivity. rewrite !map_map. cbn [hrow r_cols]. rewrite (map_ext (fun x => maxima_y (h (r_cols x))) (fun x => maxima_y (r_cols x))), (map_ext (fun x => maxima_x (h (r_cols x))) (fun x => maxima_x (r_cols x))) by auto. reflexivity. }
  assert (S : forall l l' : list (option row), map (option_map key) l = map (option_map key) l' ->
     rmap (map key) (match sequence l with Some x => Ok x | None => Err IndexError end) = rmap (map key) (match sequence l' with Some x => Ok x | None => Err IndexError end)).
  { intros l l' H. pose proof (sequence_map key l) as A. pose proof (sequence_map key l') as B. rewrite H in A. rewrite A in B. destruct (sequence l), (sequence l'); cbn in *; congruence. }
  apply S. induction (used rs) as [|k ks IH]; cbn [flat_map]; [reflexivity|]. rewrite !map_app, IH. f_equal. rewrite filter_proj by reflexivity. rewrite (map_proj r_idx) by reflexivity.
  rewrite !map_map. apply map_ext. intro i. apply (E (filter (fun r => r_id r =? k) rs) k i).
Qed.
Lemma unlink_loop_map f last ts : forall acc, unlink_loop (hframe f) last ts acc = unlink_loop f last ts acc.
Proof.
  induction ts as [|t ts IH]; intro acc; cbn [unlink_loop]; [reflexivity|]. unfold xs_time_levels. cbn [rows hframe ids]. rewrite existsb_proj by reflexivity. destruct (existsb _ (rows f)); cbn [bind]; [apply IH|reflexivity].
Qed.
Definition same_keys (f f' : frame) : Prop := map key (rows f') = map key (rows f) /\ ids f' = ids f.
Lemma unlink_map f t nt : match unlink f t nt, unlink (hframe f) t nt with Ok p, Ok p' => same_keys p p' | Err e, Err e' => e = e' | _, _ => False end.
Proof.
  unfold unlink. set (n := if t <? nt then t else nt). unfold xs_time_levels. cbn [rows hframe ids]. rewrite existsb_proj by reflexivity. destruct (existsb _ (rows f)); cbn [bind]; [|reflexivity].
  rewrite unlink_loop_map. destruct (unlink_loop f (ids f) _ _) as [acc|]; cbn [bind]; [|reflexivity]. cbn [rows hframe]. rewrite loc_list_map. destruct (loc_list _ (rows f)) as [sel|]; cbn [bind rmap]; [|reflexivity].
  rewrite max_times_map. pose proof (group_map (max_times sel) sel) as G. destruct (group_last _ sel) as [g|], (group_last _ (map hrow sel)) as [g'|]; cbn [rmap bind] in *; try discriminate; [|congruence].
  injection G as G. split; [exact G|]. unfold set_index. cbn [ids]. unfold used. f_equal. apply (f_equal (map (fun x : Z * Z * Z * option (Q * Q) => fst (fst (fst x))))) in G. rewrite !map_map in G. exact G.
Qed.
Lemma keys_coord p p' : same_keys p p' -> rmap (map coord) (xs_index0 p') = rmap (map coord) (xs_index0 p).
Proof.
  intros (H & _). unfold xs_index0. revert H. generalize (rows p) as l, (rows p') as l'. intros l l' H.
  assert (F : map coord (filter (fun r => r_idx r =? 0) l') = map coord (filter (fun r => r_idx r =? 0) l)).
  { revert l' H. induction l as [|r l IH]; intros [|r' l'] H; try discriminate; [reflexivity|]. cbn [map] in H. assert (K := f_equal (fun x => hd (key r) x) H). apply (f_equal (@tl _)) in H. cbn [hd tl] in H, K. assert (Hi := f_equal (fun x : Z * Z * Z * option (Q * Q) => snd (fst x)) K). assert (Hc := f_equal snd K). cbn [key fst snd] in Hi, Hc. cbn [filter]. rewrite Hi. destruct (r_idx r =? 0); cbn [map]; [rewrite Hc; f_equal|]; exact (IH _ H). }
  destruct (filter _ l), (filter _ l'); cbn [rmap map] in *; try discriminate; [reflexivity|]. rewrite F. reflexivity.
Qed.
Lemma online_map keep track cur t nt : track_online query keep (hframe track) (hframe cur) t nt = rmap hframe (track_online query keep track cur t nt).
Proof.
  unfold track_online. pose proof (unlink_map track (t - 1) nt) as U. destruct (unlink track (t - 1) nt) as [p|e], (unlink (hframe track) (t - 1) nt) as [p'|e']; try contradiction; cbn [bind]; [|subst; reflexivity].
  rewrite (nearest_map p) by (apply keys_coord, U). destruct (detect_nearest query p cur) as [[ix nr]|]; cbn [bind rmap]; [|reflexivity].
  rewrite (counter_map p) by apply U. destruct (update_counter p cur) as [[c1 prev]|]; cbn [bind rmap fst snd]; [|reflexivity].
  rewrite rename_time_map. destruct (rename_eddies_in_time c1 ix nr prev) as [c2|]; cbn [bind rmap]; [|reflexivity].
  rewrite merge_map. destruct (merge_reindex keep track c2) as [m|]; cbn [bind rmap]; [|reflexivity]. cbn [rows hframe]. rewrite isort_map, set_index_map by reflexivity. reflexivity.
Qed.
Lemma stamp_map t f : stamp t (hframe f) = hframe (stamp t f).
Proof. unfold stamp. cbn [rows hframe]. rewrite <- set_index_map. f_equal. rewrite !map_map. reflexivity. Qed.
(** A run *)
Definition hout (x : outcome) : outcome := (map (fun tf => (fst tf, hframe (snd tf))) (fst x), rmap hframe (snd x)).
Lemma loop_map keep det det' online fmt tf nt ts : (forall t, In t ts -> det' t = rmap hframe (det t)) -> forall track files,
  tt_loop query keep det' online fmt tf nt ts (hframe track) (map (fun tf => (fst tf, hframe (snd tf))) files) = hout (tt_loop query keep det online fmt tf nt ts track files).
Proof.
  induction ts as [|t ts IH]; intros D track files; cbn [tt_loop]; [reflexivity|]. assert (IH' := IH (fun x Hx => D x (or_intror Hx))). clear IH. rewrite (D t (or_introl eq_refl)).
  destruct (det t) as [cur|]; cbn [rmap]; [|reflexivity]. rewrite !empty_map. destruct (empty cur); [apply IH'|]. destruct (empty track).
  - rewrite stamp_map. cbn [rows hframe]. rewrite isort_map, set_index_map by reflexivity. apply IH'.
  - cbv zeta. rewrite stamp_map. destruct online.
    + rewrite online_map. destruct (track_online query keep track (stamp t cur) t nt); cbn [rmap]; [|reflexivity]. destruct (print_check tf t); [apply IH'|reflexivity].
    + destruct (store_effect fmt) as [w|]; [|reflexivity].
      assert (E : (if w then (map (fun tf0 => (fst tf0, hframe (snd tf0))) files ++ [(t, hframe (stamp t cur))])%list else map (fun tf0 => (fst tf0, hframe (snd tf0))) files)
        = map (fun tf0 => (fst tf0, hframe (snd tf0))) (if w then (files ++ [(t, stamp t cur)])%list else files)) by (destruct w; [rewrite map_app|]; reflexivity).
      rewrite E. destruct (print_check tf t); [apply IH'|reflexivity].
Qed.
End Query.
End Map.

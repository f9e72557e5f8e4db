(** C135: where a grid around the globe starts *)
From Coq Require Import Reals Lra Lia Bool List FunctionalExtensionality.
From Verif Require Import M_Base M_Cntr M_Extract S_Cntr S_Border S_Lines S_Lines2 S_Seam P_Cntr P_Lines P_Lines2 P_Border P_Enclose.
Import ListNotations.
Open Scope R_scope.

Lemma at_place cols i j : (1 <= cols)%Z -> (0 <= i < cols)%Z -> ((i + j * cols) mod cols = i)%Z /\ ((i + j * cols) / cols = j)%Z.
Proof. intros C H. split; [rewrite Z.mod_add by lia; apply Z.mod_small, H|rewrite Z.div_add by lia; rewrite (Z.div_small _ _ H); lia]. Qed.
Lemma line_turned c c' level : (forall p, c' p = (lon c p + 360, lat c p, val c p)) -> forall u v, line_in_cell c' level u v <-> exists u0 v0, u = turned_around u0 /\ v = turned_around v0 /\ line_in_cell c level u0 v0.
Proof.
  intros H. assert (L1 : forall p, lon c' p = lon c p + 360) by (intro p; unfold lon at 1; rewrite H; reflexivity). assert (L2 : forall p, lat c' p = lat c p) by (intro p; unfold lat at 1; rewrite H; reflexivity). assert (L3 : forall p, val c' p = val c p) by (intro p; unfold val at 1; rewrite H; reflexivity).
  assert (Mt : forall p q u, met c level p q u -> met c' level p q (turned_around u)).
  { intros p q u (N & X & t & T & ->). split; [exact N|]. rewrite !L3. split; [exact X|]. exists t. rewrite !L1, !L2. split; [exact T|]. unfold turned_around. cbn [fst snd]. apply f_equal2; ring. }
  assert (Mt' : forall p q u, met c' level p q u -> exists u0, u = turned_around u0 /\ met c level p q u0).
  { intros p q u (N & X & t & T & ->). rewrite !L3 in *. exists (lon c p + t * (lon c q - lon c p), lat c p + t * (lat c q - lat c p)). rewrite !L1, !L2. split; [unfold turned_around; cbn [fst snd]; apply f_equal2; ring|]. split; [exact N|]. split; [exact X|]. exists t. split; [exact T|reflexivity]. }
  assert (Mn : mean c' = mean c) by (unfold mean; rewrite !L3; reflexivity).
  intros u v. split.
  - intros (p & q & p' & q' & M1 & M2 & N1 & N2 & A). destruct (Mt' _ _ _ M1) as (u0 & U & M1'). destruct (Mt' _ _ _ M2) as (v0 & V & M2'). exists u0, v0. split; [exact U|]. split; [exact V|]. exists p, q, p', q'. split; [exact M1'|]. split; [exact M2'|]. split; [exact N1|]. split; [exact N2|].
    intro Z. destruct A as (k & K1 & K2 & K3); [intros a b Nb; rewrite !L3; apply Z, Nb|]. exists k. rewrite L3, Mn in K3. auto.
  - intros (u0 & v0 & -> & -> & p & q & p' & q' & M1 & M2 & N1 & N2 & A). exists p, q, p', q'. split; [apply Mt, M1|]. split; [apply Mt, M2|]. split; [exact N1|]. split; [exact N2|].
    intro Z. destruct A as (k & K1 & K2 & K3); [intros a b Nb; specialize (Z a b Nb); rewrite !L3 in Z; exact Z|]. exists k. rewrite L3, Mn. auto.
Qed.

(** C135: with another first column, the lines in all cells but one per row are the same, those in the columns that come last now 360 degrees further; the lines in the column of cells
    between column d - 1 and column d are lost and those between the last and the first column of the old grid are added *)
Theorem C135_start_of_a_global_grid : forall fuel mem fuel' mem' x y z d level s c s' c', meshed x y z -> enough z fuel -> enough z fuel' -> (0 < d < m_cols R z)%Z ->
  extractR fuel mem x y z level = Ok (s, c) -> extractR fuel' mem' (longitudes_starting_at d x) (starting_at d y) (starting_at d z) level = Ok (s', c') ->
  (forall u v, line s u v <-> exists i j, (0 <= i < m_cols R z - 1)%Z /\ (0 <= j < m_rows R z - 1)%Z /\ line_in_cell (cell_of x y z i j) level u v) /\
  (forall u v, line s' u v <->
    (exists i j, (d <= i < m_cols R z - 1)%Z /\ (0 <= j < m_rows R z - 1)%Z /\ line_in_cell (cell_of x y z i j) level u v) \/
    (exists i j u0 v0, (0 <= i < d - 1)%Z /\ (0 <= j < m_rows R z - 1)%Z /\ u = turned_around u0 /\ v = turned_around v0 /\ line_in_cell (cell_of x y z i j) level u0 v0) \/
    (exists j, (0 <= j < m_rows R z - 1)%Z /\ line_in_cell (cell_across x y z j) level u v)).
Proof.
  intros fuel mem fuel' mem' x y z d level s c s' c' M F F' Hd E E'. split; [exact (C112_lines_cell_by_cell _ _ _ _ _ _ _ _ M F E)|].
  pose proof M as (M1 & M2 & M3 & M4 & M5 & M6). set (cols := m_cols R z) in *. set (rows := m_rows R z) in *.
  assert (M' : meshed (longitudes_starting_at d x) (starting_at d y) (starting_at d z)) by (unfold meshed; cbn; fold cols rows; lia).
  assert (Fz : enough (starting_at d z) fuel') by exact F'.
  assert (K : forall i j (b e : bool), (0 <= i < cols - 1)%Z -> let k := (i + (if b then 1 else 0) + (j + if e then 1 else 0) * cols)%Z in (k mod cols = i + (if b then 1 else 0))%Z /\ (k / cols = j + if e then 1 else 0)%Z) by (intros i j b e Hi k; apply at_place; [lia|destruct b; lia]).
  assert (C1 : forall i j, (0 <= i < cols - 1)%Z -> (i + 1 + d < cols)%Z -> cell_of (longitudes_starting_at d x) (starting_at d y) (starting_at d z) i j = cell_of x y z (i + d) j).
  { intros i j Hi L. apply functional_extensionality. intros [b e]. unfold cell_of, longitudes_starting_at, starting_at. cbn [m_at m_cols m_rows fst snd]. rewrite M2, M4. fold cols. destruct (K i j b e Hi) as [K1 K2]. cbv zeta in K1, K2. rewrite K1, K2.
    assert (T : (i + (if b then 1 else 0) + d <? cols)%Z = true) by (apply Z.ltb_lt; destruct b; lia). unfold old_column. rewrite T, Rplus_0_r. replace (i + (if b then 1 else 0) + d)%Z with (i + d + (if b then 1 else 0))%Z by lia. reflexivity. }
  assert (C2 : forall i j, (0 <= i < cols - 1)%Z -> (cols <= i + d)%Z -> forall p, cell_of (longitudes_starting_at d x) (starting_at d y) (starting_at d z) i j p = (lon (cell_of x y z (i + d - cols) j) p + 360, lat (cell_of x y z (i + d - cols) j) p, val (cell_of x y z (i + d - cols) j) p)).
  { intros i j Hi L [b e]. unfold lon, lat, val, cell_of, longitudes_starting_at, starting_at. cbn [m_at m_cols m_rows fst snd]. rewrite M2, M4. fold cols. destruct (K i j b e Hi) as [K1 K2]. cbv zeta in K1, K2. rewrite K1, K2.
    assert (T : (i + (if b then 1 else 0) + d <? cols)%Z = false) by (apply Z.ltb_ge; destruct b; lia). unfold old_column. rewrite T. replace (i + (if b then 1 else 0) + d - cols)%Z with (i + d - cols + (if b then 1 else 0))%Z by lia. reflexivity. }
  assert (C3 : forall i j, (0 <= i < cols - 1)%Z -> (i + 1 + d = cols)%Z -> cell_of (longitudes_starting_at d x) (starting_at d y) (starting_at d z) i j = cell_across x y z j).
  { intros i j Hi L. apply functional_extensionality. intros [b e]. unfold cell_across, cell_of, longitudes_starting_at, starting_at. cbn [m_at m_cols m_rows fst snd]. rewrite M2, M4. fold cols. destruct (K i j b e Hi) as [K1 K2]. cbv zeta in K1, K2. rewrite K1, K2.
    unfold old_column. destruct b.
    - assert (T : (i + 1 + d <? cols)%Z = false) by (apply Z.ltb_ge; lia). rewrite T. replace (i + 1 + d - cols)%Z with 0%Z by lia. reflexivity.
    - assert (T : (i + 0 + d <? cols)%Z = true) by (apply Z.ltb_lt; lia). rewrite T. replace (i + 0 + d)%Z with (cols - 1)%Z by lia. reflexivity. }
  intros u v. rewrite (C112_lines_cell_by_cell _ _ _ _ _ _ _ _ M' Fz E'). cbn [starting_at m_cols m_rows]. fold cols rows. split.
  - intros (i & j & Hi & Hj & L). destruct (Z.lt_trichotomy (i + 1 + d) cols) as [T|[T|T]].
    + left. exists (i + d)%Z, j. split; [lia|]. split; [exact Hj|]. rewrite <- (C1 i j Hi T). exact L.
    + right. right. exists j. split; [exact Hj|]. rewrite <- (C3 i j Hi T). exact L.
    + right. left. apply (line_turned _ _ _ (C2 i j Hi ltac:(lia))) in L. destruct L as (u0 & v0 & U & V & L). exists (i + d - cols)%Z, j, u0, v0. split; [lia|]. auto.
  - intros [(i & j & Hi & Hj & L)|[(i & j & u0 & v0 & Hi & Hj & U & V & L)|(j & Hj & L)]].
    + exists (i - d)%Z, j. split; [lia|]. split; [exact Hj|]. rewrite (C1 (i - d)%Z j) by lia. replace (i - d + d)%Z with i by lia. exact L.
    + exists (i + cols - d)%Z, j. split; [lia|]. split; [exact Hj|]. apply (line_turned _ _ _ (C2 (i + cols - d)%Z j ltac:(lia) ltac:(lia))). exists u0, v0. replace (i + cols - d + d - cols)%Z with i by lia. auto.
    + exists (cols - 1 - d)%Z, j. split; [lia|]. split; [exact Hj|]. rewrite (C3 (cols - 1 - d)%Z j) by lia. exact L.
Qed.
Print Assumptions C135_start_of_a_global_grid.

(** *** A summit in the first column: its contour is open, and closed if the grid starts at the last column *)
Definition globeX : mat R := mkMat R 3 4 (fun k => 90 * IZR (k mod 4)).
Definition globeY : mat R := mkMat R 3 4 (fun k => IZR (k / 4)).
Definition globeZ : mat R := mkMat R 3 4 (fun k => if (k =? 4)%Z then 1 else 0).
Lemma spike_above (n : Z -> bool) (m : mat R) : (forall k, m_at R m k = if n k then 1 else 0) -> above_of R Rgtb m (1 / 2) = n.
Proof. intro H. apply functional_extensionality. intro k. unfold above_of. rewrite H. destruct (n k); [apply Rgtb_true|apply Rgtb_false]; lra. Qed.
Lemma spike_mean (n : Z -> bool) (m : mat R) : (forall k, m_at R m k = if n k then 1 else 0) -> centre_of R Rplus Rdiv 4 Rgtb m (1 / 2) = fun p q r s => (2 <? Z.b2z (n p) + Z.b2z (n q) + Z.b2z (n r) + Z.b2z (n s))%Z.
Proof.
  intro H. apply functional_extensionality; intro p; apply functional_extensionality; intro q; apply functional_extensionality; intro r; apply functional_extensionality; intro s.
  unfold centre_of. rewrite !H. destruct (n p), (n q), (n r), (n s); cbn [Z.b2z Z.add Pos.add Pos.succ Z.ltb Z.compare Pos.compare Pos.compare_cont]; first [apply Rgtb_true; lra|apply Rgtb_false; lra].
Qed.
Theorem C135_start_of_a_global_grid_refuted : exists x y z d level, meshed x y z /\ (0 < d < m_cols R z)%Z /\ (forall k, in_mesh (m_cols R z) (m_rows R z) k -> 0 <= m_at R x k < 360) /\
  exists fuel mem s c s' c', enough z fuel /\ extractR fuel mem x y z level = Ok (s, c) /\ extractR fuel mem (longitudes_starting_at d x) (starting_at d y) (starting_at d z) level = Ok (s', c') /\
  (forall vs, In (Verts R vs) s -> ~ closed_outline vs) /\ exists vs, In (Verts R vs) s' /\ closed_outline vs.
Proof.
  exists globeX, globeY, globeZ, 3%Z, (1 / 2). assert (M : meshed globeX globeY globeZ) by (unfold meshed; cbn; lia). split; [exact M|]. split; [cbn; lia|].
  split; [intros k Ik; unfold globeX; cbn [m_at]; pose proof (Z.mod_pos_bound k 4 ltac:(lia)) as B; assert (B1 : 0 <= IZR (k mod 4)) by (apply IZR_le; lia); assert (B2 : IZR (k mod 4) <= 3) by (apply IZR_le; lia); lra|].
  assert (F : enough globeZ 60) by (unfold enough; cbn; lia). exists 60%nat, (fun _ => blank).
  destruct (master R Rplus Rminus Rmult Rdiv 4 Rgtb Reqb 60 (fun _ => blank) globeX globeY globeZ (1 / 2) M F) as (T & curves & cd & E & _ & Tr & _).
  rewrite (spike_above (fun k => (k =? 4)%Z) globeZ), (spike_mean (fun k => (k =? 4)%Z) globeZ) in Tr by reflexivity. vm_compute in Tr. injection Tr as <-.
  assert (M' : meshed (longitudes_starting_at 3 globeX) (starting_at 3 globeY) (starting_at 3 globeZ)) by (unfold meshed; cbn; lia). assert (F' : enough (starting_at 3 globeZ) 60) by exact F.
  destruct (master R Rplus Rminus Rmult Rdiv 4 Rgtb Reqb 60 (fun _ => blank) _ _ _ (1 / 2) M' F') as (T' & curves' & cd' & E' & _ & Tr' & _).
  set (n := fun k => (old_column 4 3 (k mod 4) + k / 4 * 4 =? 4)%Z) in *.
  rewrite (spike_above n (starting_at 3 globeZ)), (spike_mean n (starting_at 3 globeZ)) in Tr' by reflexivity. vm_compute in Tr'. injection Tr' as <-.
  do 4 eexists. split; [exact F|]. split; [exact E|]. split; [exact E'|]. split.
  - intros vs [Hv|[]]. injection Hv as <-. cbn [map]. intros (v & l1 & l2 & E1 & E2 & _). injection E1 as Hv _. rewrite <- Hv in E2.
    match type of E2 with [?a; ?b; ?d] = _ => change ([a; b] ++ [d] = l2 ++ [a]) in E2 end. apply app_inj_tail in E2. destruct E2 as [_ E2]. apply (f_equal snd) in E2. unfold vertex, globeX, globeY, globeZ in E2. cbn in E2. lra.
  - eexists. split; [left; reflexivity|]. apply closed_map; [cbn; lia|]. eexists. split; [eexists; reflexivity|]. match goal with |- finishes ?l ?e => exists (removelast l); reflexivity end.
Qed.
Print Assumptions C135_start_of_a_global_grid_refuted.
(** The hypotheses of C135_start_of_a_global_grid are met by the globe above, and a line is added *)
Example C135_case : meshed globeX globeY globeZ /\ enough globeZ 60 /\ (0 < 3 < m_cols R globeZ)%Z /\
  (exists s c, extractR 60 (fun _ => blank) globeX globeY globeZ (1 / 2) = Ok (s, c)) /\
  (exists s' c', extractR 60 (fun _ => blank) (longitudes_starting_at 3 globeX) (starting_at 3 globeY) (starting_at 3 globeZ) (1 / 2) = Ok (s', c')) /\
  line_in_cell (cell_across globeX globeY globeZ 0) (1 / 2) (315, 1) (360, 1 / 2).
Proof.
  assert (M : meshed globeX globeY globeZ) by (unfold meshed; cbn; lia). assert (F : enough globeZ 60) by (unfold enough; cbn; lia).
  assert (M' : meshed (longitudes_starting_at 3 globeX) (starting_at 3 globeY) (starting_at 3 globeZ)) by (unfold meshed; cbn; lia). assert (F' : enough (starting_at 3 globeZ) 60) by exact F.
  split; [exact M|]. split; [exact F|]. split; [cbn; lia|]. split; [exact (C64_tracing_stays_inside_the_arrays R Rplus Rminus Rmult Rdiv 4 Rgtb Reqb 60 (fun _ => blank) _ _ _ (1 / 2) M F)|]. split; [exact (C64_tracing_stays_inside_the_arrays R Rplus Rminus Rmult Rdiv 4 Rgtb Reqb 60 (fun _ => blank) _ _ _ (1 / 2) M' F')|].
  exists (false, true), (true, true), (true, false), (true, true). split; [|split; [|split; [|split]]].
  - split; [right; split; [discriminate|reflexivity]|]. unfold val, lon, lat, cell_across, globeX, globeY, globeZ. cbn. split; [lra|]. exists (1 / 2). split; [lra|]. apply f_equal2; lra.
  - split; [left; split; [reflexivity|discriminate]|]. unfold val, lon, lat, cell_across, globeX, globeY, globeZ. cbn. split; [lra|]. exists (1 / 2). split; [lra|]. apply f_equal2; lra.
  - intros [X _]; discriminate X.
  - intros [X _]; discriminate X.
  - intro A. exists (true, true). split; [auto|]. split; [auto|]. unfold val, mean, val, cell_across, globeX, globeY, globeZ. cbn. split; lra.
Qed.

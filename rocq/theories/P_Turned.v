(** C140: the direction in which the axes are stored *)
From Coq Require Import Lia Lqa Permutation.
From Verif Require Import M_Base M_Detect M_Window S_Detect S_Window S_Convention S_Turned L_Window L_Window2 L_Window3 L_Window4 L_Window5 P_Window P_Reverse P_Convention.
Open Scope Z_scope.

Definition flip (b : bool) (n i : nat) : nat := if b then (n - 1 - i)%nat else i.
Lemma flip_lt b n i : (i < n)%nat -> (flip b n i < n)%nat.
Proof. unfold flip. destruct b; lia. Qed.
Lemma flip_flip b n i : (i < n)%nat -> flip b n (flip b n i) = i.
Proof. unfold flip. destruct b; lia. Qed.
Lemma nth_turned {A} b (l : list A) i : (i < length l)%nat -> nth_error (turned b l) i = nth_error l (flip b (length l) i).
Proof.
  intro H. unfold turned, flip. destruct b; [|reflexivity]. destruct l as [|a l]; [cbn in H; lia|]. rewrite (nth_error_nth' _ a) by (rewrite rev_length; exact H). rewrite (nth_error_nth' (a :: l) a) by lia.
  f_equal. rewrite rev_nth by exact H. f_equal. lia.
Qed.
Lemma turned_length {A} b (l : list A) : length (turned b l) = length l.
Proof. destruct b; [apply rev_length|reflexivity]. Qed.
Lemma turned_map {A B} b (f : A -> B) l : turned b (map f l) = map f (turned b l).
Proof. destruct b; [symmetry; apply map_rev|reflexivity]. Qed.
Lemma turned_in {A} b (l : list A) x : In x (turned b l) <-> In x l.
Proof. destruct b; [symmetry; apply in_rev|reflexivity]. Qed.
Lemma turned_rect {A} H W by_ bx (g : grid A) : rectangular H W g -> rectangular H W (turned_field by_ bx g).
Proof.
  intros [R1 R2]. unfold turned_field. split; [rewrite turned_length, map_length; exact R1|]. apply Forall_forall. intros r Hr. apply turned_in, in_map_iff in Hr. destruct Hr as (r0 & <- & Hr).
  rewrite turned_length. rewrite Forall_forall in R2. apply R2, Hr.
Qed.
Lemma at_turned {A} H W by_ bx (g : grid A) i j : rectangular H W g -> (i < H)%nat -> (j < W)%nat -> at_ (turned_field by_ bx g) i j = at_ g (flip by_ H i) (flip bx W j).
Proof.
  intros [R1 R2] Hi Hj. unfold at_, turned_field. rewrite turned_map, nth_error_map, nth_turned by lia. rewrite R1. destruct (nth_error g (flip by_ H i)) as [r|] eqn:E; [|reflexivity]. cbn [option_map].
  rewrite Forall_forall in R2. assert (L : length r = W) by (apply R2; eapply nth_error_In; exact E). rewrite nth_turned by lia. rewrite L. reflexivity.
Qed.
Lemma at_lt {A} H W (g : grid A) i j a : rectangular H W g -> at_ g i j = Some a -> (i < H)%nat /\ (j < W)%nat.
Proof. intros R E. apply (proj2 (rect_at H W g i j R)). exists a. exact E. Qed.
Lemma at_turned_some {A} H W by_ bx (g : grid A) i j a : rectangular H W g -> at_ g i j = Some a -> at_ (turned_field by_ bx g) (flip by_ H i) (flip bx W j) = Some a.
Proof. intros R E. destruct (at_lt H W g i j a R E) as [L1 L2]. rewrite (at_turned H W) by (assumption || apply flip_lt; assumption). rewrite !flip_flip by assumption. exact E. Qed.
Lemma at_turned_inv {A} H W by_ bx (g : grid A) i j a : rectangular H W g -> at_ (turned_field by_ bx g) i j = Some a -> (i < H)%nat /\ (j < W)%nat /\ at_ g (flip by_ H i) (flip bx W j) = Some a.
Proof. intros R E. destruct (at_lt H W _ i j a (turned_rect H W by_ bx g R) E) as [L1 L2]. split; [exact L1|]. split; [exact L2|]. rewrite (at_turned H W) in E by assumption. exact E. Qed.
Lemma mesh_x_turned by_ bx xs ys : mesh_x (turned bx xs) (turned by_ ys) = turned_field by_ bx (mesh_x xs ys).
Proof. unfold mesh_x, turned_field. rewrite map_map, <- turned_map. reflexivity. Qed.
Lemma mesh_y_turned by_ bx xs ys : mesh_y (turned bx xs) (turned by_ ys) = turned_field by_ bx (mesh_y xs ys).
Proof. unfold mesh_y, turned_field. rewrite map_map, <- turned_map. f_equal. apply map_ext. intro y. rewrite turned_map. reflexivity. Qed.

(** *** Escaping from the contour *)
Definition flip2 (by_ bx : bool) (H W : nat) (c : nat * nat) : nat * nat := (flip by_ H (fst c), flip bx W (snd c)).
Lemma flip2_window by_ bx H W c : in_window H W c -> in_window H W (flip2 by_ bx H W c).
Proof. intros [A B]. split; apply flip_lt; assumption. Qed.
Lemma flip2_flip2 by_ bx H W c : in_window H W c -> flip2 by_ bx H W (flip2 by_ bx H W c) = c.
Proof. intros [A B]. destruct c as [a b]. unfold flip2. cbn [fst snd] in *. rewrite !flip_flip by assumption. reflexivity. Qed.
Lemma flip2_border by_ bx H W c : on_border H W c -> on_border H W (flip2 by_ bx H W c).
Proof. intros [A B]. split; [apply flip2_window, A|]. destruct A as [A1 A2]. unfold flip2, flip. cbn [fst snd]. destruct by_, bx; lia. Qed.
Lemma flip2_adjacent by_ bx H W c d : in_window H W c -> in_window H W d -> adjacent c d -> adjacent (flip2 by_ bx H W c) (flip2 by_ bx H W d).
Proof. intros [A1 A2] [B1 B2]. unfold adjacent, flip2, flip. cbn [fst snd]. destruct by_, bx; lia. Qed.
Lemma escapes_in H W wall c : escapes H W wall c -> in_window H W c.
Proof. intros [d [A _] _|d e A _ _ _]; exact A. Qed.
Lemma flip2_escapes by_ bx H W (wall wall' : nat * nat -> Prop) : (forall c, in_window H W c -> (wall' (flip2 by_ bx H W c) <-> wall c)) -> forall c, escapes H W wall c -> escapes H W wall' (flip2 by_ bx H W c).
Proof.
  intros HW c E. induction E as [c B N|c d I N A E IH].
  - apply escapes_border; [apply flip2_border, B|]. rewrite HW; [exact N|apply B].
  - apply escapes_step with (d := flip2 by_ bx H W d); [apply flip2_window, I|rewrite HW; assumption| |exact IH]. apply flip2_adjacent; [exact I|eapply escapes_in; exact E|exact A].
Qed.

(** *** The cells of the contour *)
Definition flipz (b : bool) (n : nat) (a : Z) : Z := if b then Z.of_nat n - 1 - a else a.
Definition flipc (by_ bx : bool) (H W : nat) (c : Z * Z) : Z * Z := (flipz by_ H (fst c), flipz bx W (snd c)).
Lemma flipz_nat b n i : (i < n)%nat -> Z.of_nat (flip b n i) = flipz b n (Z.of_nat i).
Proof. unfold flip, flipz. destruct b; lia. Qed.
Lemma flipc_within by_ bx H W cells : cells_within H W cells -> cells_within H W (map (flipc by_ bx H W) cells).
Proof. unfold cells_within. rewrite !Forall_forall. intros A c Hc. apply in_map_iff in Hc. destruct Hc as (d & <- & Hd). specialize (A d Hd). unfold flipc, flipz. cbn [fst snd]. destruct by_, bx; lia. Qed.
Lemma flipc_in by_ bx H W cells c : cells_within H W cells -> in_window H W c ->
  In (Z.of_nat (fst (flip2 by_ bx H W c)), Z.of_nat (snd (flip2 by_ bx H W c))) (map (flipc by_ bx H W) cells) <-> In (Z.of_nat (fst c), Z.of_nat (snd c)) cells.
Proof.
  intros Hc [I1 I2]. unfold flip2. cbn [fst snd]. rewrite !flipz_nat by assumption. rewrite in_map_iff. split.
  - intros ([a b] & E & Hd). unfold flipc in E. cbn [fst snd] in E. assert (E1 : flipz by_ H a = flipz by_ H (Z.of_nat (fst c))) by congruence. assert (E2 : flipz bx W b = flipz bx W (Z.of_nat (snd c))) by congruence.
    replace (Z.of_nat (fst c)) with a by (unfold flipz in E1; destruct by_; lia). replace (Z.of_nat (snd c)) with b by (unfold flipz in E2; destruct bx; lia). exact Hd.
  - intro Hd. exists (Z.of_nat (fst c), Z.of_nat (snd c)). split; [reflexivity|exact Hd].
Qed.
Lemma mask_turned by_ bx H W cells mask mask' i j : cells_within H W cells -> mask_ok H W cells mask -> mask_ok H W (map (flipc by_ bx H W) cells) mask' -> (i < H)%nat -> (j < W)%nat ->
  at_ mask' (flip by_ H i) (flip bx W j) = Some true <-> at_ mask i j = Some true.
Proof.
  intros Hc [_ M] [_ M'] Hi Hj. rewrite M, M'. assert (I : in_window H W (i, j)) by (split; assumption). assert (I' : in_window H W (flip by_ H i, flip bx W j)) by (split; apply flip_lt; assumption).
  pose proof (flipc_in by_ bx H W cells (i, j) Hc I) as C. cbn [fst snd flip2] in C.
  assert (X : escapes H W (fun c => In (Z.of_nat (fst c), Z.of_nat (snd c)) (map (flipc by_ bx H W) cells)) (flip by_ H i, flip bx W j) <-> escapes H W (fun c => In (Z.of_nat (fst c), Z.of_nat (snd c)) cells) (i, j)); [|tauto].
  split; intro E.
  - replace (i, j) with (flip2 by_ bx H W (flip by_ H i, flip bx W j)) by (unfold flip2; cbn [fst snd]; rewrite !flip_flip by assumption; reflexivity).
    revert E. apply flip2_escapes. intros c Ic. rewrite <- (flipc_in by_ bx H W cells _ Hc (flip2_window by_ bx H W c Ic)). rewrite (flip2_flip2 by_ bx H W c Ic). reflexivity.
  - change (flip by_ H i, flip bx W j) with (flip2 by_ bx H W (i, j)). revert E. apply flip2_escapes. intros c Ic. apply flipc_in; assumption.
Qed.
Lemma flip_seq b n : Permutation (map (flip b n) (seq 0 n)) (seq 0 n).
Proof.
  apply NoDup_Permutation_bis; [|rewrite map_length; lia|].
  - apply (NoDup_map_inv (flip b n)). rewrite map_map. rewrite (map_ext_in _ (fun i => i)); [rewrite map_id; apply seq_NoDup|]. intros i Hi. apply in_seq in Hi. apply flip_flip. lia.
  - intros i Hi. apply in_map_iff in Hi. destruct Hi as (k & <- & Hk). apply in_seq in Hk. apply in_seq. pose proof (flip_lt b n k). lia.
Qed.
Lemma flat_map_perm {A B} (f : A -> list B) l l' : Permutation l l' -> Permutation (flat_map f l) (flat_map f l').
Proof.
  induction 1 as [|x l l' _ IH|x y l|l l' l'' _ IH1 _ IH2]; cbn [flat_map]; [constructor|apply Permutation_app_head, IH| |eapply Permutation_trans; eassumption].
  rewrite !app_assoc. apply Permutation_app_tail, Permutation_app_comm.
Qed.
Lemma flat_map_each {A B} (f g : A -> list B) l : (forall a, In a l -> Permutation (f a) (g a)) -> Permutation (flat_map f l) (flat_map g l).
Proof. induction l as [|a l IH]; intro H; [constructor|]. cbn [flat_map]. apply Permutation_app; [apply H; left; reflexivity|apply IH; intros b Hb; apply H; right; exact Hb]. Qed.
Lemma values_turned by_ bx H W cells data mask mask' : rectangular H W data -> cells_within H W cells -> mask_ok H W cells mask -> mask_ok H W (map (flipc by_ bx H W) cells) mask' ->
  Permutation (values_inside H W (turned_field by_ bx data) mask') (values_inside H W data mask).
Proof.
  intros R Hc M M'. unfold values_inside. set (F := fun i j => match at_ mask i j, at_ data i j with Some true, Some (Num q) => [q] | _, _ => [] end).
  eapply Permutation_trans; [|apply (flat_map_perm (fun i => flat_map (F i) (seq 0 W)) _ _ (flip_seq by_ H))]. rewrite flat_map_map'. apply flat_map_each. intros i Hi. apply in_seq in Hi.
  eapply Permutation_trans; [|apply (flat_map_perm (F (flip by_ H i)) _ _ (flip_seq bx W))]. rewrite flat_map_map'. apply flat_map_each. intros j Hj. apply in_seq in Hj. unfold F. rewrite (at_turned H W) by (assumption || lia).
  pose proof (mask_turned by_ bx H W cells mask mask' (flip by_ H i) (flip bx W j) Hc M M' ltac:(apply flip_lt; lia) ltac:(apply flip_lt; lia)) as E. rewrite !flip_flip in E by lia.
  destruct (at_ mask' i j) as [[|]|], (at_ mask (flip by_ H i) (flip bx W j)) as [[|]|]; try reflexivity; try (pose proof (proj1 E eq_refl); discriminate); try (pose proof (proj2 E eq_refl); discriminate).
Qed.
Lemma Qmean_perm l l' : Permutation l l' -> alike (Qmean l) (Qmean l').
Proof. intro P. rewrite <- !nmean_Num. apply nmean_perm, Permutation_map, P. Qed.
Lemma sign_of_eq m m' : (m == m')%Q -> sign_of m = sign_of m'.
Proof. intro E. unfold sign_of. rewrite !E. reflexivity. Qed.

Lemma mask_data_turned by_ bx H W cells data mask s v i j : rectangular H W data -> (0 < H)%nat -> (0 < W)%nat -> cells_within H W cells ->
  mask_data cells data = Ok (mask, Num s, (Num v, i, j)) -> ~ (s == 0)%Q -> held_once data v ->
  exists mask' v', mask_data (map (flipc by_ bx H W) cells) (turned_field by_ bx data) = Ok (mask', Num s, (Num v', flip by_ H i, flip bx W j)) /\ (v' == v)%Q /\ (i < H)%nat /\ (j < W)%nat.
Proof.
  intros R HH HW Hc E Hs U. destruct (mask_data_spec H W cells data R HH HW Hc) as (mask0 & M & S). destruct (mask_data_spec H W _ _ (turned_rect H W by_ bx data R) HH HW (flipc_within by_ bx H W cells Hc)) as (mask' & M' & S').
  pose proof (Qmean_perm _ _ (values_turned by_ bx H W cells data mask0 mask' R Hc M M')) as A.
  destruct (Qmean (values_inside H W data mask0)) as [|m]; [congruence|]. destruct (Qmean (values_inside H W (turned_field by_ bx data) mask')) as [|m']; [contradiction|]. cbn in A.
  destruct S as (s0 & v0 & i0 & j0 & E0 & Es & q & [V1 V2] & Ev & Max). destruct S' as (s' & v' & i' & j' & E' & Es' & q' & [V1' V2'] & Ev' & Max').
  rewrite E in E0. assert (Es0 : s = sign_of m) by congruence. assert (s0 = s) by congruence. clear Es. assert (v0 = v) by congruence. assert (i0 = i) by congruence. assert (j0 = j) by congruence. subst s0 v0 i0 j0. clear E0.
  assert (X : s' = s) by (rewrite Es0, Es'; apply sign_of_eq, A). clear Es'. subst s'. rename Es0 into Es.
  assert (S1 : (s * s == 1)%Q) by (destruct (sign_cases m) as [[_ C]|[[_ C]|[_ C]]]; rewrite Es, C in *; [exfalso; apply Hs; reflexivity|reflexivity|reflexivity]).
  assert (Evq : (v == q)%Q) by (rewrite Ev, Qmult_assoc, S1; ring). assert (Evq' : (v' == q')%Q) by (rewrite Ev', Qmult_assoc, S1; ring).
  destruct (at_turned_inv H W by_ bx data i' j' _ R V2') as (L1 & L2 & D'). destruct (at_lt H W data i j _ R V2) as [K1 K2].
  assert (T' : at_ mask0 (flip by_ H i') (flip bx W j') = Some true).
  { apply (mask_turned by_ bx H W cells mask0 mask' _ _ Hc M M'); [apply flip_lt; exact L1|apply flip_lt; exact L2|]. rewrite !flip_flip by assumption. exact V1'. }
  assert (T : at_ mask' (flip by_ H i) (flip bx W j) = Some true) by (apply (mask_turned by_ bx H W cells mask0 mask' i j Hc M M'); assumption).
  destruct (Max _ _ _ (conj T' D')) as [B1 _]. destruct (Max' _ _ _ (conj T (at_turned_some H W by_ bx data i j _ R V2))) as [B2 _].
  assert (Q1 : (q' == q)%Q). { assert (X : (s * q' == s * q)%Q) by lra. rewrite <- (Qmult_1_l q'), <- (Qmult_1_l q), <- S1, <- !Qmult_assoc, X. reflexivity. }
  destruct (U _ _ _ _ _ _ D' V2) as [U1 U2]; [rewrite Q1, Evq; reflexivity|rewrite Evq; reflexivity|].
  exists mask', v'. rewrite E'. assert (i' = flip by_ H i) as -> by (rewrite <- U1; symmetry; apply flip_flip; exact L1). assert (j' = flip bx W j) as -> by (rewrite <- U2; symmetry; apply flip_flip; exact L2).
  split; [reflexivity|]. split; [rewrite Evq', Q1, Evq; reflexivity|]. split; assumption.
Qed.

(** *** The window *)
Definition low (b : bool) (n : nat) (lo hi : Z) : Z := if b then Z.of_nat n - hi else lo.
Definition high (b : bool) (n : nat) (lo hi : Z) : Z := if b then Z.of_nat n - lo else hi.
Lemma window_turned by_ bx H W cells : cells <> [] -> cells_within H W cells -> exists y0 x0 y1 x1 rel,
  window (Z.of_nat H, Z.of_nat W) Auto cells = Ok ((y0, x0), (y1, x1), rel) /\ 0 <= y0 < y1 /\ y1 <= Z.of_nat H /\ 0 <= x0 < x1 /\ x1 <= Z.of_nat W /\
  cells_within (Z.to_nat (y1 - y0)) (Z.to_nat (x1 - x0)) rel /\
  window (Z.of_nat H, Z.of_nat W) Auto (map (flipc by_ bx H W) cells) = Ok ((low by_ H y0 y1, low bx W x0 x1), (high by_ H y0 y1, high bx W x0 x1), map (flipc by_ bx (Z.to_nat (y1 - y0)) (Z.to_nat (x1 - x0))) rel).
Proof.
  intros Ne Hc. destruct (window_spec (Z.of_nat H, Z.of_nat W) Auto cells Ne) as (lo & hi & Ex & E). destruct (window_spec (Z.of_nat H, Z.of_nat W) Auto (map (flipc by_ bx H W) cells)) as (lo' & hi' & Ex' & E'); [destruct cells; [congruence|discriminate]|].
  cbn zeta in E, E'. cbn [fst snd] in E, E'. unfold cells_within in Hc. rewrite Forall_forall in Hc.
  destruct Ex as (B & (c1 & I1 & F1) & (c2 & I2 & F2) & (c3 & I3 & F3) & (c4 & I4 & F4)). destruct Ex' as (B' & (c1' & I1' & F1') & (c2' & I2' & F2') & (c3' & I3' & F3') & (c4' & I4' & F4')).
  assert (Ly : fst lo' = (if by_ then Z.of_nat H - 1 - fst hi else fst lo) /\ fst hi' = (if by_ then Z.of_nat H - 1 - fst lo else fst hi) /\ snd lo' = (if bx then Z.of_nat W - 1 - snd hi else snd lo) /\ snd hi' = (if bx then Z.of_nat W - 1 - snd lo else snd hi)).
  { pose proof (B' _ (in_map (flipc by_ bx H W) _ _ I1)) as X1. pose proof (B' _ (in_map (flipc by_ bx H W) _ _ I2)) as X2. pose proof (B' _ (in_map (flipc by_ bx H W) _ _ I3)) as X3. pose proof (B' _ (in_map (flipc by_ bx H W) _ _ I4)) as X4.
    apply in_map_iff in I1', I2', I3', I4'. destruct I1' as (d1 & G1 & J1), I2' as (d2 & G2 & J2), I3' as (d3 & G3 & J3), I4' as (d4 & G4 & J4). subst c1' c2' c3' c4'.
    pose proof (B _ J1) as Y1. pose proof (B _ J2) as Y2. pose proof (B _ J3) as Y3. pose proof (B _ J4) as Y4. unfold flipc, flipz in *. cbn [fst snd] in *. clear -X1 X2 X3 X4 Y1 Y2 Y3 Y4 F1 F2 F3 F4 F1' F2' F3' F4'. destruct by_, bx; lia. }
  destruct Ly as (Ey & Ey' & Exx & Ex'). assert (Th : thresh_value Auto (fst hi' - fst lo') (snd hi' - snd lo') = thresh_value Auto (fst hi - fst lo) (snd hi - snd lo)).
  { unfold thresh_value. replace (Z.max (fst hi' - fst lo') (snd hi' - snd lo')) with (Z.max (fst hi - fst lo) (snd hi - snd lo)); [reflexivity|]. rewrite Ey, Ey', Exx, Ex'. destruct by_, bx; lia. }
  rewrite Th in E'. set (t := thresh_value Auto (fst hi - fst lo) (snd hi - snd lo)) in *.
  assert (Ht : 0 <= t). { unfold t, thresh_value. destruct (Z.leb_spec (Z.max (fst hi - fst lo) (snd hi - snd lo) / 2) 3); lia. }
  pose proof (Hc _ I1) as P1. pose proof (Hc _ I2) as P2. pose proof (Hc _ I3) as P3. pose proof (Hc _ I4) as P4. pose proof (B _ I1) as Z1. pose proof (B _ I3) as Z3.
  assert (Sy : low by_ H (Z.max (fst lo - t) 0) (Z.min (fst hi + (t + 1)) (Z.of_nat H)) = Z.max (fst lo' - t) 0 /\ high by_ H (Z.max (fst lo - t) 0) (Z.min (fst hi + (t + 1)) (Z.of_nat H)) = Z.min (fst hi' + (t + 1)) (Z.of_nat H)).
  { unfold low, high. rewrite Ey, Ey'. clear -Ht P1 P2 Z1 F1 F2. destruct by_; lia. }
  assert (Sx : low bx W (Z.max (snd lo - t) 0) (Z.min (snd hi + (t + 1)) (Z.of_nat W)) = Z.max (snd lo' - t) 0 /\ high bx W (Z.max (snd lo - t) 0) (Z.min (snd hi + (t + 1)) (Z.of_nat W)) = Z.min (snd hi' + (t + 1)) (Z.of_nat W)).
  { unfold low, high. rewrite Exx, Ex'. clear -Ht P3 P4 Z3 F3 F4. destruct bx; lia. }
  destruct Sy as [Sy1 Sy2], Sx as [Sx1 Sx2].
  do 5 eexists. split; [exact E|]. split; [clear -Ht P1 P2 Z1 F1 F2; lia|]. split; [clear; lia|]. split; [clear -Ht P3 P4 Z3 F3 F4; lia|]. split; [clear; lia|]. split.
  - unfold cells_within. apply Forall_forall. intros c Hcc. apply in_map_iff in Hcc. destruct Hcc as (d & <- & Hd). pose proof (B d Hd) as Q1. pose proof (Hc d Hd) as Q2. cbn [fst snd]. clear -Q1 Q2 Ht. lia.
  - rewrite E', Sy1, Sy2, Sx1, Sx2. f_equal. f_equal. rewrite !map_map. apply map_ext_in. intros c Hcc. pose proof (B c Hcc) as Q1. pose proof (Hc c Hcc) as Q2. unfold flipc, flipz. cbn [fst snd].
    unfold low, high in Sy1, Sy2, Sx1, Sx2. clear -Q1 Q2 Ht Sy1 Sy2 Sx1 Sx2. f_equal; [destruct by_; lia|destruct bx; lia].
Qed.
Lemma at_slice2_eq {A} y0 y1 x0 x1 (g : grid A) i j : at_ (slice2 y0 y1 x0 x1 g) i j = if (Nat.ltb i (Z.to_nat (y1 - y0)) && Nat.ltb j (Z.to_nat (x1 - x0)))%bool then at_ g (Z.to_nat y0 + i) (Z.to_nat x0 + j) else None.
Proof.
  unfold at_, slice2. rewrite nth_error_map, nth_error_slice. destruct (Nat.ltb i (Z.to_nat (y1 - y0))); cbn [andb]; [|reflexivity]. destruct (nth_error g (Z.to_nat y0 + i)) as [r|]; cbn [option_map]; [rewrite nth_error_slice; reflexivity|].
  destruct (Nat.ltb j _); reflexivity.
Qed.
Lemma slice2_window {A} H W y0 y1 x0 x1 (g : grid A) : rectangular H W g -> 0 <= y0 < y1 -> y1 <= Z.of_nat H -> 0 <= x0 < x1 -> x1 <= Z.of_nat W ->
  rectangular (Z.to_nat (y1 - y0)) (Z.to_nat (x1 - x0)) (slice2 y0 y1 x0 x1 g).
Proof. intros R A1 A2 B1 B2. pose proof (slice2_rect H W y0 y1 x0 x1 g R) as S. rewrite !Nat.min_l in S by lia. exact S. Qed.
Lemma slice2_turned {A} by_ bx H W y0 y1 x0 x1 (g : grid A) : rectangular H W g -> 0 <= y0 < y1 -> y1 <= Z.of_nat H -> 0 <= x0 < x1 -> x1 <= Z.of_nat W ->
  slice2 (low by_ H y0 y1) (high by_ H y0 y1) (low bx W x0 x1) (high bx W x0 x1) (turned_field by_ bx g) = turned_field by_ bx (slice2 y0 y1 x0 x1 g).
Proof.
  intros R A1 A2 B1 B2. pose proof (slice2_window H W y0 y1 x0 x1 g R A1 A2 B1 B2) as S.
  assert (Lo : 0 <= low by_ H y0 y1 < high by_ H y0 y1 /\ high by_ H y0 y1 <= Z.of_nat H /\ 0 <= low bx W x0 x1 < high bx W x0 x1 /\ high bx W x0 x1 <= Z.of_nat W /\ high by_ H y0 y1 - low by_ H y0 y1 = y1 - y0 /\ high bx W x0 x1 - low bx W x0 x1 = x1 - x0).
  { unfold low, high. destruct by_, bx; lia. }
  destruct Lo as (L1 & L2 & L3 & L4 & L5 & L6). pose proof (slice2_window H W _ _ _ _ _ (turned_rect H W by_ bx g R) L1 L2 L3 L4) as S'. rewrite L5, L6 in S'.
  apply (rect_ext _ _ _ _ S' (turned_rect _ _ by_ bx _ S)). intros i j Hi Hj. rewrite (at_turned _ _ by_ bx _ i j S Hi Hj), !at_slice2_eq, L5, L6.
  pose proof (flip_lt by_ _ _ Hi) as Fi. pose proof (flip_lt bx _ _ Hj) as Fj. rewrite (proj2 (Nat.ltb_lt _ _) Hi), (proj2 (Nat.ltb_lt _ _) Hj), (proj2 (Nat.ltb_lt _ _) Fi), (proj2 (Nat.ltb_lt _ _) Fj). cbn [andb].
  rewrite (at_turned H W by_ bx g) by (assumption || lia). f_equal; unfold flip, low; [destruct by_; lia|destruct bx; lia].
Qed.

(** *** The nearest grid points *)
Lemma turned_monotone b l : monotone l -> monotone (turned b l).
Proof.
  destruct b; [|exact (fun H => H)]. intros [M|M]; [right|left]; intros i j a c Hij Ea Ec; assert (Hj : (j < length l)%nat) by (apply nth_error_Some in Ec as L || (assert (L : nth_error (turned true l) j <> None) by congruence; apply nth_error_Some in L; rewrite turned_length in L; exact L));
    rewrite nth_turned in Ea, Ec by lia; eapply M; [|exact Ec|exact Ea| |exact Ec|exact Ea]; unfold flip; lia.
Qed.
Lemma point_turned by_ bx xs ys i j p : grid_point (mesh_x (turned bx xs) (turned by_ ys)) (mesh_y (turned bx xs) (turned by_ ys)) i j p ->
  (i < length ys)%nat /\ (j < length xs)%nat /\ grid_point (mesh_x xs ys) (mesh_y xs ys) (flip by_ (length ys) i) (flip bx (length xs) j) p.
Proof.
  intros [A B]. rewrite mesh_x_turned in A. rewrite mesh_y_turned in B. destruct (at_turned_inv _ _ by_ bx _ i j _ (mesh_x_rect xs ys) A) as (L1 & L2 & A'). destruct (at_turned_inv _ _ by_ bx _ i j _ (mesh_y_rect xs ys) B) as (_ & _ & B').
  split; [exact L1|]. split; [exact L2|]. split; assumption.
Qed.
Lemma point_turned' by_ bx xs ys i j p : grid_point (mesh_x xs ys) (mesh_y xs ys) i j p ->
  grid_point (mesh_x (turned bx xs) (turned by_ ys)) (mesh_y (turned bx xs) (turned by_ ys)) (flip by_ (length ys) i) (flip bx (length xs) j) p.
Proof. intros [A B]. rewrite mesh_x_turned, mesh_y_turned. split; [apply at_turned_some with (1 := mesh_x_rect xs ys), A|apply at_turned_some with (1 := mesh_y_rect xs ys), B]. Qed.
Lemma nearest_turned by_ bx xs ys v i j : nearest_of_all (mesh_x (turned bx xs) (turned by_ ys)) (mesh_y (turned bx xs) (turned by_ ys)) v i j ->
  (i < length ys)%nat /\ (j < length xs)%nat /\ nearest_of_all (mesh_x xs ys) (mesh_y xs ys) v (flip by_ (length ys) i) (flip bx (length xs) j).
Proof.
  intros (p & G & M). destruct (point_turned by_ bx xs ys i j p G) as (L1 & L2 & G'). split; [exact L1|]. split; [exact L2|]. exists p. split; [exact G'|]. intros i' j' p' X. apply (M _ _ _ (point_turned' by_ bx xs ys i' j' p' X)).
Qed.
Lemma nearest_turned' by_ bx xs ys v i j : nearest_of_all (mesh_x xs ys) (mesh_y xs ys) v i j ->
  nearest_of_all (mesh_x (turned bx xs) (turned by_ ys)) (mesh_y (turned bx xs) (turned by_ ys)) v (flip by_ (length ys) i) (flip bx (length xs) j).
Proof. intros (p & G & M). exists p. split; [apply point_turned', G|]. intros i' j' p' X. destruct (point_turned by_ bx xs ys i' j' p' X) as (_ & _ & X'). apply (M _ _ _ X'). Qed.
Lemma nearest_lt xs ys v i j : nearest_of_all (mesh_x xs ys) (mesh_y xs ys) v i j -> (i < length ys)%nat /\ (j < length xs)%nat.
Proof. intros (p & [A _] & _). apply (at_lt _ _ _ _ _ _ (mesh_x_rect xs ys) A). Qed.

(** C140: if every vertex has one nearest grid point, which is preselected, and no two grid points hold the reported extremum,
    the analysis gives the same sign, extremum and position for data stored in the other direction. *)
Theorem C140_direction_of_the_axes : forall by_ bx tree xs ys field vs px py s v y x, nearest_search tree -> monotone xs -> monotone ys -> rectangular (length ys) (length xs) field -> vs <> [] ->
  Qmean (map fst vs) = Num px -> Qmean (map snd vs) = Num py ->
  (forall u, In u vs -> exists i j p, only_nearest (mesh_x xs ys) (mesh_y xs ys) u i j /\ preselected (mesh_x xs ys) (mesh_y xs ys) px py i j p) ->
  data_in_contour tree (mesh_x xs ys) (mesh_y xs ys) field (finite_contour vs) = Ok (Num s, (Num v, y, x)) -> ~ (s == 0)%Q -> held_once field v ->
  exists v', (v' == v)%Q /\
    data_in_contour tree (mesh_x (turned bx xs) (turned by_ ys)) (mesh_y (turned bx xs) (turned by_ ys)) (turned_field by_ bx field) (finite_contour vs) = Ok (Num s, (Num v', y, x)).
Proof.
  intros by_ bx tree xs ys field vs px py s v y x HT Mx My RF Nv E1 E2 HN D Hs U.
  assert (Ny : ys <> []). { destruct vs as [|u vs]; [congruence|]. destruct (HN u (or_introl eq_refl)) as (i & j & p & [N _] & _). destruct (nearest_lt _ _ _ _ _ N) as [L _]. destruct ys; [cbn in L; lia|discriminate]. }
  assert (Ny' : turned by_ ys <> []) by (intro X; apply (f_equal (@length Q)) in X; rewrite turned_length in X; destruct ys; [congruence|discriminate]).
  set (H := length ys) in *. set (W := length xs) in *.
  destruct (C30_regular_grid_mapping tree (turned bx xs) (turned by_ ys) vs px py HT (turned_monotone bx xs Mx) (turned_monotone by_ ys My) Ny' E1 E2) as [(cells' & G' & _)|(_ & Bad)].
  2: { exfalso. destruct vs as [|u vs]; [congruence|]. destruct (HN u (or_introl eq_refl)) as (i & j & p & _ & [P1 P2]). apply (Bad _ _ p (conj (point_turned' by_ bx xs ys i j p P1) P2)). }
  unfold data_in_contour in D |- *. destruct (grid_cells tree (mesh_x xs ys) (mesh_y xs ys) (finite_contour vs)) as [cells|e] eqn:G; [|discriminate]. rewrite G'. cbn [bind] in D |- *.
  pose proof (C68_nearest_when_preselected tree xs ys vs px py cells HT Mx My Ny E1 E2 G) as F. pose proof (C68_nearest_when_preselected tree (turned bx xs) (turned by_ ys) vs px py cells' HT (turned_monotone bx xs Mx) (turned_monotone by_ ys My) Ny' E1 E2 G') as F'. cbv zeta in F, F'.
  assert (EC : cells' = map (flipc by_ bx H W) cells /\ cells_within H W cells /\ cells <> []).
  { assert (X : cells' = map (flipc by_ bx H W) cells /\ cells_within H W cells).
    { clear - F F' HN. revert cells' F'. induction F as [|c u cs us F1 F2 IH]; intros cells' F'; [inversion F'; split; [reflexivity|constructor]|]. inversion F' as [|c' ? cs' ? X1 X2]; subst.
      destruct (IH (fun w Hw => HN w (or_intror Hw)) cs' X2) as [-> CW]. destruct (HN u (or_introl eq_refl)) as (i & j & p & [N Un] & P). destruct F1 as (a & b & -> & Na); [exists i, j, p; auto|].
      destruct X1 as (a' & b' & -> & Na'). { exists (flip by_ H i), (flip bx W j), p. split; [apply nearest_turned', N|]. destruct P as [P1 P2]. split; [apply point_turned', P1|exact P2]. }
      destruct (nearest_turned by_ bx xs ys u a' b' Na') as (L1 & L2 & Na2). destruct (Un _ _ Na) as [-> ->]. destruct (Un _ _ Na2) as [V1 V2]. fold H in V1, L1. fold W in V2, L2. destruct (nearest_lt _ _ _ _ _ N) as [K1 K2]. fold H in K1. fold W in K2. split.
      - cbn [map]. f_equal. unfold flipc. cbn [fst snd]. rewrite <- !flipz_nat by assumption. rewrite <- V1, <- V2, !flip_flip by assumption. reflexivity.
      - constructor; [cbn [fst snd]; clear -K1 K2; lia|exact CW]. }
    destruct X as [X1 X2]. split; [exact X1|]. split; [exact X2|]. destruct vs; [congruence|]. inversion F. discriminate. }
  destruct EC as (-> & CW & Cn). clear F F'.
  assert (LX : length (mesh_x xs ys) = H) by (unfold mesh_x; apply map_length). assert (WX : width_of (mesh_x xs ys) = W) by (unfold mesh_x; destruct ys; [congruence|reflexivity]).
  assert (LX' : length (mesh_x (turned bx xs) (turned by_ ys)) = H) by (unfold mesh_x; rewrite map_length; apply turned_length).
  assert (WX' : width_of (mesh_x (turned bx xs) (turned by_ ys)) = W) by (unfold mesh_x; destruct (turned by_ ys); [congruence|]; cbn; apply turned_length).
  rewrite LX, WX in D. rewrite LX', WX'. destruct (window_turned by_ bx H W cells Cn CW) as (y0 & x0 & y1 & x1 & rel & W1 & B1 & B2 & B3 & B4 & RW & W2). rewrite W1 in D. rewrite W2. cbn [bind fst snd] in D |- *.
  rewrite mesh_x_turned, mesh_y_turned. rewrite !(slice2_turned by_ bx H W y0 y1 x0 x1) by (assumption || apply mesh_x_rect || apply mesh_y_rect).
  pose proof (slice2_window H W y0 y1 x0 x1 field RF B1 B2 B3 B4) as RD. pose proof (slice2_window H W y0 y1 x0 x1 _ (mesh_x_rect xs ys) B1 B2 B3 B4) as RX. pose proof (slice2_window H W y0 y1 x0 x1 _ (mesh_y_rect xs ys) B1 B2 B3 B4) as RY.
  set (data := slice2 y0 y1 x0 x1 field) in *. set (h := Z.to_nat (y1 - y0)) in *. set (w := Z.to_nat (x1 - x0)) in *.
  destruct (mask_data rel data) as [[[mask s0] [[v0 i] j]]|e] eqn:EM; [|discriminate]. cbn [bind] in D.
  destruct (at_ (slice2 y0 y1 x0 x1 (mesh_x xs ys)) i j) as [xq|] eqn:AX; [|discriminate]. destruct (at_ (slice2 y0 y1 x0 x1 (mesh_y xs ys)) i j) as [yq|] eqn:AY; [|discriminate].
  assert (s0 = Num s) as -> by congruence. assert (v0 = Num v) as -> by congruence.
  assert (Ud : held_once data v).
  { intros a b a' b' q q' Q1 Q2 V1 V2. unfold data in Q1, Q2. apply at_slice2 in Q1, Q2. destruct (U _ _ _ _ _ _ Q1 Q2 V1 V2) as [X1 X2]. clear -X1 X2. lia. }
  destruct (mask_data_turned by_ bx h w rel data mask s v i j RD ltac:(unfold h; lia) ltac:(unfold w; lia) RW EM Hs Ud) as (mask' & v' & EM' & Ev & Li & Lj).
  exists v'. split; [exact Ev|]. rewrite EM'. cbn [bind]. rewrite (at_turned_some h w by_ bx _ i j xq RX AX), (at_turned_some h w by_ bx _ i j yq RY AY). congruence.
Qed.
Print Assumptions C140_direction_of_the_axes.

(** Two summits of the same height in one contour: the first one in the order of storage is reported. *)
Definition wide_ring : list (Q * Q) := map (fun ij => (nth (snd ij) (coord 7 0 1) 0%Q, nth (fst ij) (coord 7 0 1) 0%Q)) [(1, 2); (1, 3); (1, 4); (2, 5); (3, 5); (4, 5); (5, 4); (5, 3); (5, 2); (4, 1); (3, 1); (2, 1); (1, 2)]%nat.
Definition two_summits (a b : Q) : grid num := tabulate 7 7 (fun i j => if (Nat.eqb i 2 && Nat.eqb j 3)%bool then Num a else if (Nat.eqb i 4 && Nat.eqb j 3)%bool then Num b else Num 1).
Theorem C140_direction_of_the_axes_refuted : exists tree xs ys field vs, nearest_search tree /\ increasing xs /\ increasing ys /\ (forall v, In v vs -> within_grid xs ys v) /\
  data_in_contour tree (mesh_x xs ys) (mesh_y xs ys) field (finite_contour vs) = Ok (Num 1, (Num 5, Num 2, Num 3)) /\
  data_in_contour tree (mesh_x xs (turned true ys)) (mesh_y xs (turned true ys)) (turned_field true false field) (finite_contour vs) = Ok (Num 1, (Num 5, Num 4, Num 3)).
Proof.
  exists brute_tree, (coord 7 0 1), (coord 7 0 1), (two_summits 5 5), wide_ring. split; [exact brute_tree_nearest|]. split; [apply coord_increasing; lra|]. split; [apply coord_increasing; lra|]. split; [|split; vm_compute; reflexivity].
  intros v Hv. exists (nth 0%nat (coord 7 0 1) 0%Q), (nth 6%nat (coord 7 0 1) 0%Q), (nth 0%nat (coord 7 0 1) 0%Q), (nth 6%nat (coord 7 0 1) 0%Q). do 4 (split; [apply nth_In; cbn; lia|]).
  unfold wide_ring in Hv. cbn [map In fst snd] in Hv. repeat (destruct Hv as [<-|Hv]; [cbn; split; split; vm_compute; discriminate|]). destruct Hv.
Qed.
Print Assumptions C140_direction_of_the_axes_refuted.

(** The hypotheses are met when one of the summits is higher. *)
Lemma held_summit a b : (1 < b)%Q -> (b < a)%Q -> held_once (two_summits a b) a.
Proof.
  intros Hb Hab. assert (G : forall i j q, at_ (two_summits a b) i j = Some (Num q) -> (q == a)%Q -> i = 2%nat /\ j = 3%nat).
  { intros i j q E Eq. unfold two_summits in E. rewrite at_tabulate in E. destruct (_ && _)%bool; [|discriminate]. destruct (Nat.eqb i 2 && Nat.eqb j 3)%bool eqn:E1; [apply andb_prop in E1; destruct E1 as [A B]; apply Nat.eqb_eq in A, B; auto|].
    exfalso. destruct (Nat.eqb i 4 && Nat.eqb j 3)%bool; [assert (q = b) by congruence|assert (q = 1%Q) by congruence]; subst; lra. }
  intros i j i' j' q q' E E' Q1 Q2. destruct (G _ _ _ E Q1), (G _ _ _ E' Q2). lia.
Qed.
Example C140_case : nearest_search brute_tree /\ monotone (coord 7 0 1) /\ rectangular 7 7 (two_summits 6 5) /\ exists px py, Qmean (map fst wide_ring) = Num px /\ Qmean (map snd wide_ring) = Num py /\
  (forall u, In u wide_ring -> exists i j p, only_nearest (mesh_x (coord 7 0 1) (coord 7 0 1)) (mesh_y (coord 7 0 1) (coord 7 0 1)) u i j /\ preselected (mesh_x (coord 7 0 1) (coord 7 0 1)) (mesh_y (coord 7 0 1) (coord 7 0 1)) px py i j p) /\
  data_in_contour brute_tree (mesh_x (coord 7 0 1) (coord 7 0 1)) (mesh_y (coord 7 0 1) (coord 7 0 1)) (two_summits 6 5) (finite_contour wide_ring) = Ok (Num 1, (Num 6, Num 2, Num 3)) /\ held_once (two_summits 6 5) 6.
Proof.
  split; [exact brute_tree_nearest|]. split; [left; apply coord_increasing; lra|]. split; [apply tabulate_rect|]. do 2 eexists. split; [vm_compute; reflexivity|]. split; [vm_compute; reflexivity|]. split; [|split; [vm_compute; reflexivity|apply held_summit; lra]].
  intros v Hv. unfold wide_ring in Hv. apply in_map_iff in Hv. destruct Hv as ([i j] & <- & Hij). exists i, j. cbn [fst snd]. exists (nth j (coord 7 0 1) 0%Q, nth i (coord 7 0 1) 0%Q). cbn [In] in Hij.
  repeat (destruct Hij as [E|Hij]; [injection E as <- <-; split; [eapply on_a_grid_point; [apply coord_increasing; lra|apply coord_increasing; lra|reflexivity|reflexivity|reflexivity]|split; [split; reflexivity|split; unfold near; vm_compute; discriminate]]|]). destruct Hij.
Qed.

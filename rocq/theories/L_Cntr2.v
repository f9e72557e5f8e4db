(** The tracer follows the curves of the mesh: one curve (cross) *)
From Coq Require Import Lia.
From Verif Require Import M_Base M_Cntr L_Cntr1.

Lemma bind_Ok {A B} (x : A) (f : A -> res B) : bind (Ok x) f = f x. Proof. reflexivity. Qed.
Lemma inside_true n k : 0 <= k < n -> inside n k = true.
Proof. intro H. unfold inside. apply andb_true_intro. split; [apply Z.leb_le|apply Z.ltb_lt]; lia. Qed.
Lemma get_ok {A} n (d : Z -> A) k : 0 <= k < n -> get n d k = Ok (d k).
Proof. intro H. unfold get. rewrite inside_true by exact H. reflexivity. Qed.
Lemma put_ok {A} n (d : Z -> A) k v : 0 <= k < n -> put n d k v = Ok (fun m => if m =? k then v else d m).
Proof. intro H. unfold put. rewrite inside_true by exact H. reflexivity. Qed.

Section Flat.
Variables imax jmax : Z.
Variable above : Z -> bool.
Variable centre : Z -> Z -> Z -> Z -> bool.
Hypothesis I2 : 2 <= imax.
Hypothesis J2 : 2 <= jmax.
Notation nreg := (nreg imax jmax).
Notation ijmax := (ijmax imax jmax).
Definition flat (p : Z * Z) : Z := fst p + snd p * imax.
Definition high (p : Z * Z) : bool := above (flat p).
Definition ix (s : site) : Z := sx s + sy s * imax.
Definition lfo (d : dir) : Z := match d with Le => -1 | Ri => 1 | Up => imax | Dn => - imax end.
Definition fw (d : dir) : Z := match d with Le => imax | Ri => - imax | Up => 1 | Dn => -1 end.
Notation edge_ok := (edge_ok imax jmax).
Notation valid := (valid imax jmax).
Notation validb := (validb imax jmax).
Notation cut := (cut high).
Notation col := (col high).
Notation step := (step high).
Notation trail := (trail imax jmax high).
Notation all_keys := (all_keys imax jmax).
Definition grid (s : site) : Prop := 0 <= sx s < imax /\ 0 <= sy s < jmax.

Ltac bools := repeat match goal with
  | |- context [?x <? ?y] => destruct (Z.ltb_spec x y) | |- context [?x <=? ?y] => destruct (Z.leb_spec x y) | |- context [?x =? ?y] => destruct (Z.eqb_spec x y)
  end.
Lemma forward_lf d : forward imax (lfo d) = fw d.
Proof. unfold forward. destruct d; cbn [lfo fw]; bools; try lia; reflexivity. Qed.
Lemma is_jedge_lf d : is_jedge (lfo d) = isj d.
Proof. unfold is_jedge. destruct d; cbn [lfo isj]; bools; try lia; reflexivity. Qed.
Definition mark_of (d : dir) (c : cell) : bool := match d with Le => c_i0 c | Ri => c_i1 c | Up => c_j1 c | Dn => c_j0 c end.
Definition rub (d : dir) (c : cell) : cell := match d with Le => with_i0 false c | Ri => with_i1 false c | Up => with_j1 false c | Dn => with_j0 false c end.
Lemma marked_lf d c : marked (lfo d) c = mark_of d c.
Proof. unfold marked. destruct d; cbn [lfo mark_of]; bools; try lia; reflexivity. Qed.
Lemma unmark_lf d c : unmark (lfo d) c = rub d c.
Proof. unfold unmark. destruct d; cbn [lfo rub]; bools; try lia; reflexivity. Qed.
Lemma lfo_opp d : lfo (opp d) = - lfo d. Proof. destruct d; cbn; lia. Qed.
Lemma fw_opp d : fw (opp d) = - fw d. Proof. destruct d; cbn; lia. Qed.
Lemma lfo_inj d e : lfo d = lfo e -> d = e. Proof. destruct d, e; cbn; intro H; try reflexivity; exfalso; lia. Qed.
Lemma lfo_pos d : (0 <? lfo d) = match d with Ri | Up => true | _ => false end.
Proof. destruct d; cbn [lfo]; bools; try lia; reflexivity. Qed.
Lemma fw_pos d : (0 <? fw d) = match d with Le | Up => true | _ => false end.
Proof. destruct d; cbn [fw]; bools; try lia; reflexivity. Qed.
Lemma point0_ix s : point0 (ix s) (fw (sd s)) = flat (pt0 s).
Proof. unfold point0. rewrite fw_pos. destruct s as [x y []]; unfold ix, flat; cbn; nia. Qed.
Lemma point1_ix s : point1 (ix s) (fw (sd s)) = flat (pt1 s).
Proof. unfold point1, ix, flat. destruct s as [x y []]; cbn [fw sd sx sy pt1 fst snd]; bools; nia. Qed.
Lemma pt2_lf s : flat (pt1 s) + lfo (sd s) = flat (pt2 s).
Proof. unfold flat. destruct s as [x y []]; cbn; nia. Qed.
Lemma pt3_lf s : flat (pt0 s) + lfo (sd s) = flat (pt3 s).
Proof. unfold flat. destruct s as [x y []]; cbn; nia. Qed.
Lemma zone_lf s : ix s + (if 0 <? lfo (sd s) then lfo (sd s) else 0) = flat (zone_of s).
Proof. rewrite lfo_pos. unfold flat, ix. destruct s as [x y []]; cbn; nia. Qed.
Lemma next_edge_go w s : next_edge w (ix s) (lfo (sd s)) (fw (sd s)) (flat (pt0 s)) (flat (pt1 s)) (isj (sd s)) = (ix (go w s), lfo (sd (go w s)), fw (sd (go w s)), isj (sd (go w s))).
Proof.
  unfold next_edge. rewrite lfo_pos. unfold flat, ix. destruct s as [x y []], w as [[]|]; cbn; repeat match goal with |- (_, _) = (_, _) => f_equal end; nia.
Qed.
Lemma ix_inj s t : grid s -> grid t -> ix s = ix t -> sx s = sx t /\ sy s = sy t.
Proof. unfold grid, ix. intros [A B] [C D] E. assert (sy s = sy t) by (destruct (Z.lt_trichotomy (sy s) (sy t)) as [L|[L|L]]; [exfalso|exact L|exfalso]; nia). split; [|assumption]. rewrite H in E. lia. Qed.
Lemma ix_dec s t : grid s -> grid t -> ix s = ix t -> sd s = sd t -> s = t.
Proof. intros A B E D. destruct (ix_inj s t A B E). destruct s, t; cbn in *; congruence. Qed.
Lemma grid_ix s : grid s -> 0 <= ix s < ijmax.
Proof. unfold grid, ix, M_Cntr.ijmax. nia. Qed.
Lemma grid_reg k : 0 <= k < ijmax -> 0 <= k < nreg. Proof. unfold M_Cntr.nreg, M_Cntr.ijmax. lia. Qed.
Lemma edge_grid s : edge_ok s -> grid s. Proof. unfold L_Cntr1.edge_ok, grid. destruct (isj (sd s)); lia. Qed.
Lemma grid_flip s : grid s -> grid (flip s). Proof. exact (fun H => H). Qed.
Lemma ix_flip s : ix (flip s) = ix s. Proof. reflexivity. Qed.
Definition in_mesh (p : Z * Z) : Prop := 0 <= fst p < imax /\ 0 <= snd p < jmax.
Lemma mesh_flat p : in_mesh p -> 0 <= flat p < ijmax. Proof. unfold in_mesh, flat, M_Cntr.ijmax. nia. Qed.
Lemma edge_mesh s : edge_ok s -> in_mesh (pt0 s) /\ in_mesh (pt1 s).
Proof. unfold L_Cntr1.edge_ok, in_mesh. destruct s as [x y []]; cbn; lia. Qed.
Lemma valid_mesh s : valid s -> in_mesh (pt0 s) /\ in_mesh (pt1 s) /\ in_mesh (pt2 s) /\ in_mesh (pt3 s) /\ in_mesh (zone_of s).
Proof. unfold L_Cntr1.valid, in_mesh. destruct s as [x y []]; cbn; lia. Qed.

(** What the array holds besides start marks *)
Definition wf (d : Z -> cell) : Prop := forall x y, 0 <= x < imax -> 0 <= y < jmax ->
  c_z (d (x + y * imax)) = above (x + y * imax) /\ c_ib (d (x + y * imax)) = ((x =? 0) || (x =? imax - 1))%bool /\ c_jb (d (x + y * imax)) = ((y =? 0) || (y =? jmax - 1))%bool.
Definition skel (c : cell) := (c_z c, c_ib c, c_jb c, c_row c, c_open c, c_done c).
Definition frame (d d' : Z -> cell) : Prop := forall k, skel (d' k) = skel (d k).
Lemma frame_refl d : frame d d. Proof. intro. reflexivity. Qed.
Lemma frame_trans d e f : frame d e -> frame e f -> frame d f. Proof. intros A B k. rewrite (B k). apply A. Qed.
Lemma frame_wf d d' : frame d d' -> wf d -> wf d'.
Proof. intros F W x y Hx Hy. pose proof (F (x + y * imax)) as E. unfold skel in E. destruct (W x y Hx Hy) as [A [B C]]. repeat split; congruence. Qed.
Definition mk (d : Z -> cell) (s : site) : bool := mark_of (sd s) (d (ix s)).
Definition op (d : Z -> cell) (s : site) : bool := c_open (d (ix s)).
Lemma frame_op d d' s : frame d d' -> op d' s = op d s.
Proof. intro F. pose proof (F (ix s)) as E. unfold skel in E. unfold op. congruence. Qed.
Lemma wf_mesh d p : wf d -> in_mesh p -> c_z (d (flat p)) = high p.
Proof. intros W [A B]. apply (W _ _ A B). Qed.
Lemma boundary d s : wf d -> edge_ok s -> valid (flip s) -> (if isj (sd s) then c_jb (d (ix s)) else c_ib (d (ix s))) = negb (validb s).
Proof.
  intros W E V. destruct (edge_grid s E) as [A B]. destruct (W _ _ A B) as [_ [Hi Hj]]. unfold ix. rewrite Hi, Hj. clear Hi Hj W. unfold L_Cntr1.valid, L_Cntr1.edge_ok, L_Cntr1.validb in *.
  destruct s as [x y []]; cbn [isj sd sx sy flip opp zone_of fst snd] in *; bools; cbn; try reflexivity; exfalso; lia.
Qed.

(** Counting the marks *)
Definition all_sites : list site := nodup site_eq_dec (flat_map (fun y => flat_map (fun x => [mkS (Z.of_nat x) (Z.of_nat y) Ri; mkS (Z.of_nat x) (Z.of_nat y) Le; mkS (Z.of_nat x) (Z.of_nat y) Up; mkS (Z.of_nat x) (Z.of_nat y) Dn]) (seq 0 (Z.to_nat imax))) (seq 0 (Z.to_nat jmax))).
Lemma all_sites_in s : In s all_sites <-> grid s.
Proof.
  unfold all_sites. rewrite nodup_In, in_flat_map. split.
  - intros [y [Hy H]]. apply in_flat_map in H as [x [Hx H]]. apply in_seq in Hx, Hy. unfold grid. destruct H as [<-|[<-|[<-|[<-|[]]]]]; cbn; lia.
  - intros [A B]. exists (Z.to_nat (sy s)). split; [apply in_seq; lia|]. apply in_flat_map. exists (Z.to_nat (sx s)). split; [apply in_seq; lia|]. rewrite !Z2Nat.id by lia. destruct s as [x y []]; cbn; auto.
Qed.
Definition kount (d : Z -> cell) : Z := Z.of_nat (length (filter (mk d) all_sites)).
Lemma filter_less {A} (f g : A -> bool) (x : A) l : NoDup l -> In x l -> f x = true -> g x = false -> (forall y, In y l -> y <> x -> g y = f y) -> length (filter f l) = S (length (filter g l)).
Proof.
  intros N. induction N as [|y l Hy N IH]; intros I Fx Gx E; [destruct I|]. cbn. destruct I as [->|I].
  - rewrite Fx, Gx. cbn. f_equal. f_equal. apply filter_ext_in. intros z Hz. symmetry. apply E; [right; exact Hz|]. intros ->. contradiction.
  - assert (y <> x) by (intros ->; contradiction). rewrite (E y) by (auto using in_eq). destruct (f y); cbn; rewrite IH; auto; intros; apply E; auto; right; assumption.
Qed.
Lemma kount_ext d d' : (forall u, grid u -> mk d' u = mk d u) -> kount d' = kount d.
Proof. intro H. unfold kount. do 2 f_equal. apply filter_ext_in. intros u Hu. apply H, all_sites_in, Hu. Qed.
Lemma kount_less d d' s : grid s -> mk d s = true -> mk d' s = false -> (forall u, grid u -> u <> s -> mk d' u = mk d u) -> kount d' = kount d - 1.
Proof.
  intros G M M' H. unfold kount. rewrite (filter_less (mk d) (mk d') s); [lia|apply NoDup_nodup|apply all_sites_in, G|exact M|exact M'|]. intros y Hy. apply H, all_sites_in, Hy.
Qed.

(** Saddles *)
Definition ext {A} (f g : Z -> option A) : Prop := forall k b, f k = Some b -> g k = Some b.
Definition agree (sd : Z -> option bool) (T : Z * Z -> bool) : Prop := forall p b, sd (flat p) = Some b -> T p = b.
Lemma agree_ext f g T : ext f g -> agree g T -> agree f T. Proof. intros E A p b H. apply A, E, H. Qed.
Lemma ext_refl {A} (f : Z -> option A) : ext f f. Proof. intros k b H. exact H. Qed.
Lemma ext_trans {A} (f g h : Z -> option A) : ext f g -> ext g h -> ext f h. Proof. intros E F k b H. apply F, E, H. Qed.
Lemma agree_some f : exists T, agree f T.
Proof. exists (fun p => match f (flat p) with Some b => b | None => false end). intros p b H. rewrite H. reflexivity. Qed.

(** Same place *)
Definition alike (t t' : tracer) : Prop := t_edge0 t' = t_edge0 t /\ t_left0 t' = t_left0 t /\ t_edge00 t' = t_edge00 t.
Lemma mk_rub s u c : sd u <> sd s -> mark_of (sd u) (rub (sd s) c) = mark_of (sd u) c.
Proof. destruct (sd u), (sd s); cbn; congruence. Qed.
Lemma erase_ok s t : grid s -> exists t', erase imax jmax (ix s) (lfo (sd s)) t = Ok t' /\ frame (t_data t) (t_data t') /\ t_saddle t' = t_saddle t /\ alike t t' /\
  mk (t_data t') s = false /\ (forall u, grid u -> u <> s -> mk (t_data t') u = mk (t_data t) u) /\ t_count t' - kount (t_data t') = t_count t - kount (t_data t).
Proof.
  intro G. assert (R : 0 <= ix s < nreg) by (apply grid_reg, grid_ix, G). unfold erase. rewrite get_ok by exact R. rewrite bind_Ok, marked_lf. fold (mk (t_data t) s). destruct (mk (t_data t) s) eqn:M.
  - rewrite put_ok by exact R. rewrite bind_Ok, unmark_lf. eexists. split; [reflexivity|]. cbn [t_data with_count with_data t_saddle t_count]. split; [|split; [reflexivity|split; [repeat split|]]].
    + intro k. destruct (Z.eqb_spec k (ix s)) as [->|_]; [|reflexivity]. unfold skel. destruct (sd s); reflexivity.
    + assert (A : mk (fun m => if m =? ix s then rub (sd s) (t_data t (ix s)) else t_data t m) s = false) by (unfold mk; rewrite Z.eqb_refl; destruct (sd s); reflexivity).
      assert (B : forall u, grid u -> u <> s -> mk (fun m => if m =? ix s then rub (sd s) (t_data t (ix s)) else t_data t m) u = mk (t_data t) u).
      { intros u Gu N. unfold mk. destruct (Z.eqb_spec (ix u) (ix s)) as [E|_]; [|reflexivity]. rewrite E. apply mk_rub. intro D. apply N, ix_dec; assumption. }
      split; [exact A|]. split; [exact B|]. rewrite (kount_less _ _ s G M A B). lia.
  - exists t. split; [reflexivity|]. split; [apply frame_refl|]. split; [reflexivity|]. split; [repeat split|]. split; [exact M|]. split; [reflexivity|reflexivity].
Qed.
Lemma turn_ok s t : wf (t_data t) -> valid s -> exists t' w, turn imax jmax centre (ix s) (lfo (sd s)) (flat (pt0 s)) (flat (pt1 s)) t = Ok (t', w) /\
  t_data t' = t_data t /\ t_count t' = t_count t /\ alike t t' /\ ext (t_saddle t) (t_saddle t') /\ forall T, agree (t_saddle t') T -> way high T s = w.
Proof.
  intros W V. destruct (valid_mesh s V) as [M0 [M1 [M2 [M3 Mz]]]]. unfold turn. rewrite pt2_lf, pt3_lf, zone_lf.
  rewrite !get_ok by (first [apply grid_reg, mesh_flat; assumption|apply mesh_flat; assumption]). rewrite !bind_Ok. rewrite !wf_mesh by assumption. unfold way.
  destruct (eqb (high (pt0 s)) (high (pt2 s))); destruct (eqb (negb (high (pt0 s))) (high (pt3 s)));
    try (eexists _, _; split; [reflexivity|]; split; [reflexivity|]; split; [reflexivity|]; split; [repeat split|]; split; [apply ext_refl|]; reflexivity).
  destruct (t_saddle t (flat (zone_of s))) as [gt|] eqn:Hs.
  - rewrite bind_Ok. eexists _, _. split; [reflexivity|]. split; [reflexivity|]. split; [reflexivity|]. split; [repeat split|]. split; [apply ext_refl|]. intros T A. cbn. rewrite (A _ _ Hs). reflexivity.
  - rewrite !inside_true by (apply mesh_flat; assumption). cbn [andb]. rewrite put_ok by (apply mesh_flat; assumption). rewrite !bind_Ok. eexists _, _. split; [reflexivity|]. split; [reflexivity|]. split; [reflexivity|]. split; [repeat split|]. cbn [fst snd t_saddle]. split.
    + intros k b H. destruct (Z.eqb_spec k (flat (zone_of s))); [subst; congruence|exact H].
    + intros T A. do 2 f_equal. apply A. rewrite Z.eqb_refl. reflexivity.
Qed.

Definition ends (s : site) : Z * Z := (flat (pt0 s), flat (pt1 s)).
Definition hit (l : list site) (u : site) : Prop := exists y, In y l /\ isj (sd y) = false /\ key y = key u.
Definition len {A} (l : list A) : Z := Z.of_nat (length l).
Lemma hit_app l l' u : hit (l ++ l') u <-> hit l u \/ hit l' u.
Proof.
  split.
  - intros [y [I H]]. apply in_app_or in I as [I|I]; [left|right]; exists y; auto.
  - intros [[y [I H]]|[y [I H]]]; exists y; split; auto; apply in_or_app; auto.
Qed.
Lemma hit_one y u : hit [y] u <-> isj (sd y) = false /\ (u = y \/ u = flip y).
Proof.
  split.
  - intros [z [[<-|[]] [J K]]]. split; [exact J|]. apply key_eq, K.
  - intros [J H]. exists y. split; [left; reflexivity|]. split; [exact J|]. destruct H as [->| ->]; [reflexivity|symmetry; apply key_flip].
Qed.
Lemma tl_snoc {A} (l : list A) x : tl (l ++ [x]) = match l with [] => [] | _ => tl l ++ [x] end.
Proof. destruct l; reflexivity. Qed.
(** What one call of zone_crosser does *)
Definition traced (pass2 closing : bool) (s0 : site) (t0 t' : tracer) (n' done' : Z) (pts' : list (Z * Z)) : Prop := exists l e,
  frame (t_data t0) (t_data t') /\ alike t0 t' /\ ext (t_saddle t0) (t_saddle t') /\ l <> [] /\ ~ In s0 (tl l) /\ (forall T, agree (t_saddle t') T -> trail T s0 l e) /\
  ((~ valid e /\ done' = 4 /\ n' = len l + 1 /\ (pass2 = true -> pts' = map ends l ++ [ends (flip e)])%list)
   \/ (closing = true /\ e = s0 /\ done' = 3 /\ n' = len l + 1 /\ (pass2 = true -> pts' = map ends l ++ [ends s0])%list)
   \/ (pass2 = false /\ valid e /\ isj (sd e) = false /\ op (t_data t0) e = true /\ done' = 4 /\ n' = len l)) /\
  (pass2 = true -> t_data t' = t_data t0 /\ t_count t' = t_count t0) /\
  (pass2 = false -> t_count t' - kount (t_data t') = t_count t0 - kount (t_data t0) /\ (forall x, In x (tl l) -> isj (sd x) = false -> op (t_data t0) x = false) /\
     forall u, grid u -> mk (t_data t') u = true <-> mk (t_data t0) u = true /\ ~ hit (tl l) u /\ ~ (~ valid e /\ u = flip e)).
(** the state in the middle: pre has been crossed *)
Definition midway (pass2 : bool) (t0 : tracer) (pre : list site) (t : tracer) : Prop :=
  frame (t_data t0) (t_data t) /\ alike t0 t /\ ext (t_saddle t0) (t_saddle t) /\
  (pass2 = true -> t_data t = t_data t0 /\ t_count t = t_count t0) /\
  (pass2 = false -> t_count t - kount (t_data t) = t_count t0 - kount (t_data t0) /\ (forall x, In x (tl pre) -> isj (sd x) = false -> op (t_data t0) x = false) /\
     forall u, grid u -> mk (t_data t) u = true <-> mk (t_data t0) u = true /\ ~ hit (tl pre) u).
Lemma cross_last pass2 closing room f (e : site) n pts t : edge_ok e -> (pass2 = true -> 0 <= n < room) ->
  cross imax jmax centre (S f) pass2 closing room (ix (flip e)) (lfo (sd (flip e))) (fw (sd (flip e))) (isj (sd (flip e))) n 4 pts t = Ok (t, n + 1, 4, if pass2 then (pts ++ [ends (flip e)])%list else pts).
Proof.
  intros E R. cbn [cross]. rewrite point0_ix, point1_ix. destruct (edge_mesh (flip e) (edge_flip imax jmax e E)) as [M0 M1]. destruct pass2.
  - rewrite !inside_true; [reflexivity|apply mesh_flat, M1|apply mesh_flat, M0|apply R; reflexivity].
  - reflexivity.
Qed.
Lemma cross_ok (pass2 closing : bool) (room : Z) (s0 : site) (t0 : tracer) : wf (t_data t0) -> t_edge0 t0 = ix s0 -> t_left0 t0 = lfo (sd s0) -> cut s0 -> valid s0 -> (closing = true -> isj (sd s0) = false) -> (closing = false -> ~ valid (flip s0)) ->
  (pass2 = true -> forall T l e, agree (t_saddle t0) T -> trail T s0 l e -> ~ In s0 (tl l) -> len l < room) -> forall fuel pre c t pts,
  (length all_keys + 2 < fuel + length pre)%nat -> midway pass2 t0 pre t -> (forall T, agree (t_saddle t) T -> trail T s0 pre c) -> ~ In s0 (tl pre) -> valid c -> (pass2 = true -> pts = map ends pre) ->
  exists t' n' done' pts', cross imax jmax centre fuel pass2 closing room (ix c) (lfo (sd c)) (fw (sd c)) (isj (sd c)) (len pre) 0 pts t = Ok (t', n', done', pts') /\
    traced pass2 closing s0 t0 t' n' done' pts'.
Proof.
  intros W0 E0 L0 C0 V0 Cl Nc Room. induction fuel as [|fuel IH]; intros pre c t pts Fu [Fr [Al [Ex [P2 P1]]]] Tr Ns Vc Hp.
  { exfalso. destruct (agree_some (t_saddle t)) as [T A]. pose proof (trail_bound _ _ _ _ _ _ _ C0 (Tr T A) Ns). lia. }
  destruct (agree_some (t_saddle t)) as [T0 A0]. pose proof (Tr T0 A0) as Tr0.
  assert (Cc : cut c) by exact (trail_cut _ _ _ _ _ _ _ Tr0 C0).
  assert (W : wf (t_data t)) by exact (frame_wf _ _ Fr W0).
  cbn [cross]. rewrite point0_ix, point1_ix.
  destruct (valid_mesh c Vc) as [M0 [M1 _]].
  set (q := if pass2 then (pts ++ [ends c])%list else pts).
  assert (Hq : (if pass2 then if (inside room (len pre) && inside ijmax (flat (pt0 c)) && inside ijmax (flat (pt1 c)))%bool then Ok (pts ++ [(flat (pt0 c), flat (pt1 c))])%list else Err IndexError else Ok pts) = Ok q).
  { unfold q. destruct pass2; [|reflexivity]. rewrite !inside_true; [reflexivity|apply mesh_flat, M1|apply mesh_flat, M0|]. split; [unfold len; lia|]. apply (Room eq_refl T0 pre c); [exact (agree_ext _ _ _ Ex A0)|exact Tr0|exact Ns]. }
  rewrite Hq, bind_Ok. clear Hq. assert (Qp : pass2 = true -> q = map ends (pre ++ [c])) by (intro P; unfold q; rewrite P, map_app, (Hp P); reflexivity).
  (* the rest of the round, once the edge has been checked *)
  assert (Next : forall t1, alike t0 t1 -> midway pass2 t0 (pre ++ [c]) t1 -> t_saddle t1 = t_saddle t -> ~ In s0 (tl (pre ++ [c])) ->
    exists t' n' done' pts', (do w <- turn imax jmax centre (ix c) (lfo (sd c)) (flat (pt0 c)) (flat (pt1 c)) t1; let '(t, way) := w in
      let '(edge, lf, fwd, jedge) := next_edge way (ix c) (lfo (sd c)) (fw (sd c)) (flat (pt0 c)) (flat (pt1 c)) (isj (sd c)) in
      do c <- get nreg (t_data t) edge;
      if (if jedge then c_jb c else c_ib c) then
        let lf := - lf in let fwd := - fwd in
        do t <- (if (negb pass2 && (negb (edge =? t_edge0 t) || negb (lf =? t_left0 t)))%bool then erase imax jmax edge lf t else Ok t);
        cross imax jmax centre fuel pass2 closing room edge lf fwd jedge (len pre + 1) 4 q t
      else cross imax jmax centre fuel pass2 closing room edge lf fwd jedge (len pre + 1) 0 q t) = Ok (t', n', done', pts') /\ traced pass2 closing s0 t0 t' n' done' pts').
  { intros t1 Al1 [Fr1 [_ [Ex1 [P21 P11]]]] Sd Ns1. pose proof (frame_wf _ _ Fr1 W0) as W1. destruct (turn_ok c t1 W1 Vc) as [t2 [w [-> [D2 [K2 [Al2 [Ex2 Wy]]]]]]]. rewrite bind_Ok. rewrite next_edge_go.
    set (e := go w c). assert (Ste : forall T, agree (t_saddle t2) T -> step T c = e) by (intros T A; unfold e; rewrite <- (Wy T A); reflexivity).
    destruct (agree_some (t_saddle t2)) as [T2 A2]. pose proof (step_ok imax jmax high T2 c Vc) as [Ee [Ve _]]. rewrite (Ste T2 A2) in Ee, Ve.
    assert (Ge : grid e) by exact (edge_grid e Ee).
    assert (Ex' : ext (t_saddle t) (t_saddle t2)) by (rewrite <- Sd; exact Ex2).
    assert (Tr2 : forall T, agree (t_saddle t2) T -> trail T s0 (pre ++ [c]) e) by (intros T A; rewrite <- (Ste T A); apply trail_snoc; [apply Tr, (agree_ext _ _ _ Ex' A)|exact Vc]).
    assert (Al02 : alike t0 t2) by (destruct Al1 as [? [? ?]], Al2 as [? [? ?]]; repeat split; congruence).
    assert (Ex02 : ext (t_saddle t0) (t_saddle t2)) by exact (ext_trans _ _ _ Ex1 Ex2).
    rewrite get_ok by (apply grid_reg, grid_ix, Ge). rewrite bind_Ok. rewrite D2. rewrite (boundary (t_data t1) e W1 Ee Ve).
    assert (Lp : len pre + 1 = len (pre ++ [c])) by (unfold len; rewrite app_length; cbn; lia).
    destruct (validb e) eqn:Vb; cbn [negb].
    - apply validb_spec in Vb. rewrite Lp. apply IH; [rewrite app_length; cbn [length]; lia| |exact Tr2|exact Ns1|exact Vb|exact Qp].
      split; [rewrite D2; exact Fr1|]. split; [exact Al02|]. split; [exact Ex02|]. rewrite D2, K2. split; assumption.
    - assert (Nv : ~ valid e) by (intro X; apply validb_spec in X; congruence).
      assert (Rm : pass2 = true -> 0 <= len pre + 1 < room).
      { intro P. split; [unfold len; lia|]. rewrite Lp. apply (Room P T2 (pre ++ [c]) e); [exact (agree_ext _ _ _ Ex02 A2)|exact (Tr2 T2 A2)|exact Ns1]. }
      destruct fuel as [|f']; [exfalso; pose proof (trail_bound _ _ _ _ _ _ _ C0 (Tr2 T2 A2) Ns1) as B; rewrite app_length in B; cbn [length] in B; lia|].
      rewrite <- lfo_opp, <- fw_opp. replace (isj (sd e)) with (isj (sd (flip e))) by (destruct e as [? ? []]; reflexivity). change (ix e) with (ix (flip e)). change (opp (sd e)) with (sd (flip e)).
      assert (Nf : flip e <> s0).
      { intro X. destruct (trail_col _ _ _ _ _ _ _ (Tr2 T2 A2) C0) as [Ce [Be _]]. pose proof (col_flip high e Ce) as Y. rewrite X, Be in Y. destruct (col s0); discriminate. }
      assert (Tst : (negb (ix (flip e) =? t_edge0 t2) || negb (lfo (sd (flip e)) =? t_left0 t2))%bool = true).
      { destruct (Z.eqb_spec (ix (flip e)) (t_edge0 t2)) as [X|X]; [|reflexivity]. destruct (Z.eqb_spec (lfo (sd (flip e))) (t_left0 t2)) as [Y|Y]; [|reflexivity]. exfalso. apply Nf. destruct Al02 as [Q1 [Q2 _]]. rewrite Q1, E0 in X. rewrite Q2, L0 in Y. apply ix_dec; [exact Ge|apply edge_grid, valid_edge, V0|exact X|apply lfo_inj, Y]. }
      rewrite Tst. rewrite andb_true_r. destruct pass2 eqn:P; cbn [negb].
      + rewrite bind_Ok. rewrite cross_last by (exact Ee || (intros _; exact (Rm eq_refl))). eexists _, _, _, _. split; [reflexivity|]. exists (pre ++ [c])%list, e.
        destruct (P21 eq_refl) as [D1 K1]. rewrite D2, K2, D1, K1. split; [apply frame_refl|]. split; [exact Al02|]. split; [exact Ex02|]. split; [destruct pre; discriminate|]. split; [exact Ns1|]. split; [exact Tr2|].
        split; [left|split; [auto|discriminate]]. split; [exact Nv|]. split; [reflexivity|]. split; [lia|]. intros _. rewrite (Qp eq_refl). reflexivity.
      + destruct (erase_ok (flip e) t2 Ge) as [t3 [-> [Fr3 [Sd3 [Al3 [Mf [Mo K3]]]]]]]. rewrite bind_Ok. rewrite cross_last by (exact Ee || discriminate). eexists _, _, _, _. split; [reflexivity|]. exists (pre ++ [c])%list, e.
        rewrite D2 in Fr3, Mo, K3. split; [exact (frame_trans _ _ _ Fr1 Fr3)|]. split; [destruct Al02 as [? [? ?]], Al3 as [? [? ?]]; repeat split; congruence|]. rewrite Sd3. split; [exact Ex02|]. split; [destruct pre; discriminate|]. split; [exact Ns1|]. split; [exact Tr2|].
        split; [left; split; [exact Nv|]; split; [reflexivity|]; split; [lia|discriminate]|]. split; [discriminate|]. intros _. destruct (P11 eq_refl) as [Kc [Op Mk]]. split; [lia|]. split; [exact Op|]. intros u Gu.
        destruct (site_eq_dec u (flip e)) as [->|Nu]; [split; [rewrite Mf; discriminate|]; intros [_ [_ X]]; exfalso; apply X; auto|].
        rewrite (Mo u Gu Nu). rewrite (Mk u Gu). split; [intros [X Y]|intros [X [Y _]]; auto]. split; [exact X|]. split; [exact Y|]. intros [_ Z]. exact (Nu Z). }
  assert (Al' : t_edge0 t = ix s0 /\ t_left0 t = lfo (sd s0)) by (destruct Al as [Q1 [Q2 _]]; split; congruence).
  destruct pre as [|p pre].
  { (* the first point *)
    cbn [len length Z.of_nat]. change (0 =? 0) with true. cbn [negb andb]. rewrite andb_false_r, bind_Ok. cbn [negb]. apply Next; [exact Al| |reflexivity|intros []]. split; [exact Fr|]. split; [exact Al|]. split; [exact Ex|]. split; [exact P2|exact P1]. }
  assert (Ln : (len (p :: pre) =? 0) = false) by (unfold len; cbn [length]; apply Z.eqb_neq; lia). rewrite Ln. cbn [negb]. rewrite andb_true_r. change (0 =? 0) with true. cbn [andb].
  assert (Lp : len (p :: pre) + 1 = len ((p :: pre) ++ [c])) by (unfold len; rewrite app_length; cbn; lia).
  destruct (trail_end _ _ _ _ _ _ _ Tr0 ltac:(discriminate)) as [Ec Vfc].
  assert (Gc : grid c) by exact (edge_grid c Ec).
  destruct (isj (sd c)) eqn:Jc; cbn [negb].
  { rewrite bind_Ok. change (0 =? 0) with true. cbn [negb]. assert (Ns1 : ~ In s0 (tl ((p :: pre) ++ [c]))).
    { cbn. intro X. apply in_app_or in X as [X|[->|[]]]; [exact (Ns X)|]. destruct closing; [rewrite (Cl eq_refl) in Jc; discriminate|exact (Nc eq_refl Vfc)]. }
    apply Next; [exact Al| |reflexivity|exact Ns1]. split; [exact Fr|]. split; [exact Al|]. split; [exact Ex|]. split; [exact P2|]. intro P. destruct (P1 P) as [K [Op Mk]]. split; [exact K|]. cbn [app tl] in *. split.
    - intros x Hx. apply in_app_or in Hx as [Hx|[<-|[]]]; [apply Op, Hx|congruence].
    - intros u Gu. rewrite (Mk u Gu). rewrite hit_app, hit_one. split; [intros [X Y]; split; [exact X|]; intros [Z|[Z _]]; [exact (Y Z)|congruence]|]. intros [X Y]. split; [exact X|]. intro Z. apply Y. left. exact Z. }
  unfold check_edge. rewrite get_ok by (apply grid_reg, grid_ix, Gc). rewrite bind_Ok. change (c_open (t_data t (ix c))) with (op (t_data t) c).
  rewrite (frame_op _ _ c Fr). destruct (negb pass2 && op (t_data t0) c)%bool eqn:Opn.
  { (* an open end *)
    apply andb_true_iff in Opn as [P Oc]. apply negb_true_iff in P. rewrite bind_Ok. eexists _, _, _, _. split; [reflexivity|]. exists (p :: pre), c. split; [exact Fr|]. split; [exact Al|]. split; [exact Ex|]. split; [discriminate|]. split; [exact Ns|]. split; [exact Tr|].
    split; [right; right; auto 10|]. split; [exact P2|]. intro P'. destruct (P1 P') as [K [Op Mk]]. split; [exact K|]. split; [exact Op|]. intros u Gu. rewrite (Mk u Gu). split; [intros [X Y]|intros [X [Y _]]; auto]. split; [exact X|]. split; [exact Y|]. intros [Z _]. exact (Z Vc). }
  destruct Al' as [-> ->].
  destruct (site_eq_dec c s0) as [->|Ncs].
  { (* back at the start *)
    rewrite !Z.eqb_refl. cbn [andb]. assert (Hc : closing = true) by (destruct closing; [reflexivity|]; exfalso; exact (Nc eq_refl Vfc)). rewrite Hc. rewrite bind_Ok. change (negb (3 =? 0)) with true. cbn [negb]. eexists _, _, _, _. split; [reflexivity|].
    exists (p :: pre), s0. split; [exact Fr|]. split; [exact Al|]. split; [exact Ex|]. split; [discriminate|]. split; [exact Ns|]. split; [exact Tr|].
    split; [right; left; repeat split; auto; intro P; rewrite (Qp P), map_app; reflexivity|]. split; [exact P2|]. intro P'. destruct (P1 P') as [K [Op Mk]]. split; [exact K|]. split; [exact Op|]. intros u Gu. rewrite (Mk u Gu). split; [intros [X Y]|intros [X [Y _]]; auto]. split; [exact X|]. split; [exact Y|]. intros [Z _]. exact (Z Vc). }
  assert (Tst : ((ix c =? ix s0) && (lfo (sd c) =? lfo (sd s0)))%bool = false).
  { destruct (Z.eqb_spec (ix c) (ix s0)) as [X|X]; [|reflexivity]. destruct (Z.eqb_spec (lfo (sd c)) (lfo (sd s0))) as [Y|Y]; [|reflexivity]. exfalso. apply Ncs. apply ix_dec; [exact Gc|apply edge_grid, valid_edge, V0|exact X|apply lfo_inj, Y]. }
  rewrite Tst. assert (Ns1 : ~ In s0 (tl ((p :: pre) ++ [c]))) by (cbn; intro X; apply in_app_or in X as [X|[X|[]]]; [exact (Ns X)|congruence]).
  destruct pass2 eqn:P.
  { rewrite bind_Ok. change (0 =? 0) with true. cbn [negb]. apply Next; [exact Al| |reflexivity|exact Ns1]. split; [exact Fr|]. split; [exact Al|]. split; [exact Ex|]. split; [exact P2|]. discriminate. }
  destruct (P1 eq_refl) as [K [Op Mk]]. cbn [negb andb] in Opn.
  (* the two marks of the edge are erased *)
  assert (Two : exists t2, (do t1 <- erase imax jmax (ix c) (if 0 <? fw (sd c) then -1 else 1) t; do t2 <- erase imax jmax (ix c) (if 0 <? fw (sd c) then 1 else -1) t1; Ok (t2, 0, false)) = Ok (t2, 0, false) /\
    frame (t_data t) (t_data t2) /\ t_saddle t2 = t_saddle t /\ alike t t2 /\ (forall u, grid u -> mk (t_data t2) u = true <-> mk (t_data t) u = true /\ ~ (u = c \/ u = flip c)) /\ t_count t2 - kount (t_data t2) = t_count t - kount (t_data t)).
  { assert (Hf : (if 0 <? fw (sd c) then -1 else 1) = lfo (sd c) /\ (if 0 <? fw (sd c) then 1 else -1) = lfo (sd (flip c))) by (rewrite fw_pos; destruct c as [x y []]; cbn in *; try discriminate; auto). destruct Hf as [-> ->].
    destruct (erase_ok c t Gc) as [t1 [-> [F1 [S1 [A1 [Mf1 [Mo1 K1]]]]]]]. rewrite bind_Ok. change (ix c) with (ix (flip c)). destruct (erase_ok (flip c) t1 Gc) as [t2 [-> [F2 [S2 [A2 [Mf2 [Mo2 K2]]]]]]]. rewrite bind_Ok. exists t2. split; [reflexivity|].
    split; [exact (frame_trans _ _ _ F1 F2)|]. split; [congruence|]. split; [destruct A1 as [? [? ?]], A2 as [? [? ?]]; repeat split; congruence|]. split; [|lia]. intros u Gu.
    destruct (site_eq_dec u (flip c)) as [->|N2]; [rewrite Mf2; split; [discriminate|]; intros [_ X]; exfalso; apply X; auto|]. rewrite (Mo2 u Gu N2).
    destruct (site_eq_dec u c) as [->|N1]; [rewrite Mf1; split; [discriminate|]; intros [_ X]; exfalso; apply X; auto|]. rewrite (Mo1 u Gu N1). split; [intro X; split; [exact X|]; intros [Y|Y]; contradiction|intros [X _]; exact X]. }
  destruct Two as [t2 [-> [F2 [S2 [A2 [M2 K2]]]]]]. rewrite bind_Ok. change (0 =? 0) with true. cbn [negb].
  assert (A02 : alike t0 t2) by (destruct Al as [? [? ?]], A2 as [? [? ?]]; repeat split; congruence).
  apply Next; [exact A02| |exact S2|exact Ns1]. split; [exact (frame_trans _ _ _ Fr F2)|]. split; [exact A02|]. rewrite S2. split; [exact Ex|]. split; [discriminate|]. intros _. split; [lia|]. cbn [app tl] in *. split.
  - intros x Hx. apply in_app_or in Hx as [Hx|[<-|[]]]; [apply Op, Hx|auto].
  - intros u Gu. rewrite (M2 u Gu), (Mk u Gu), hit_app, hit_one. tauto.
Qed.
Lemma zone_crosser_ok pass2 closing room s0 t0 fuel : wf (t_data t0) -> t_edge0 t0 = ix s0 -> t_left0 t0 = lfo (sd s0) -> cut s0 -> valid s0 -> (closing = true -> isj (sd s0) = false) -> (closing = false -> ~ valid (flip s0)) ->
  (pass2 = true -> forall T l e, agree (t_saddle t0) T -> trail T s0 l e -> ~ In s0 (tl l) -> len l < room) -> (length all_keys + 2 < fuel)%nat -> exists t' n' done' pts', zone_crosser imax jmax centre fuel pass2 closing room t0 = Ok (t', n', done', pts') /\ traced pass2 closing s0 t0 t' n' done' pts'.
Proof.
  intros W0 E0 L0 C0 V0 Cl Nc Room Fu. unfold zone_crosser. rewrite E0, L0, forward_lf, is_jedge_lf. apply (cross_ok pass2 closing room s0 t0 W0 E0 L0 C0 V0 Cl Nc Room fuel [] s0 t0 []); [cbn [length]; lia| |intros T A; constructor|intros []|exact V0|reflexivity].
  split; [apply frame_refl|]. split; [repeat split|]. split; [apply ext_refl|]. split; [auto|]. intros _. split; [reflexivity|]. split; [intros x []|]. intros u Gu. split; [intro M; split; [exact M|intros [y [[] _]]]|intros [M _]; exact M].
Qed.
End Flat.

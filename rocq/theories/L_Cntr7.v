(** What data_init leaves in memory *)
From Coq Require Import Lia.
From Verif Require Import M_Base M_Cntr L_Cntr1 L_Cntr2 L_Cntr5.

Lemma set_if n (d : Z -> cell) k f (b : bool) : 0 <= k < n -> exists d', (if b then change n d k f else Ok d) = Ok d' /\ d' k = (if b then f (d k) else d k) /\ forall q, q <> k -> d' q = d q.
Proof.
  intro H. destruct b; [|exists d; auto]. rewrite change_eq by exact H. eexists. split; [reflexivity|]. cbv beta. rewrite Z.eqb_refl. split; [reflexivity|]. intros q Hq. apply Z.eqb_neq in Hq. rewrite Hq. reflexivity.
Qed.
Lemma put_if n (d : Z -> cell) k v (b : bool) : 0 <= k < n -> exists d', (if b then put n d k v else Ok d) = Ok d' /\ d' k = (if b then v else d k) /\ forall q, q <> k -> d' q = d q.
Proof.
  intro H. destruct b; [|exists d; auto]. rewrite put_ok by exact H. eexists. split; [reflexivity|]. cbv beta. rewrite Z.eqb_refl. split; [reflexivity|]. intros q Hq. apply Z.eqb_neq in Hq. rewrite Hq. reflexivity.
Qed.
Definition b2z (b : bool) : Z := if b then 1 else 0.

Section Fill.
Variables imax jmax : Z.
Variable above : Z -> bool.
Hypothesis I1 : 1 <= imax.
Hypothesis J1 : 1 <= jmax.
Notation nreg := (nreg imax jmax).
Notation ijmax := (ijmax imax jmax).
Definition zoneb (k : Z) : bool := ((1 <=? k mod imax) && (1 <=? k / imax) && (k / imax <? jmax))%bool.
Definition zb (k : Z) : bool := ((k <? ijmax) && above k)%bool.
Definition ibb (k : Z) : bool := ((k mod imax =? 0) || (k mod imax =? imax - 1))%bool.
Definition jbb (k : Z) : bool := ((k / imax =? 0) || (k / imax =? jmax - 1))%bool.
Definition mi0 (k : Z) : bool :=
  (negb (k / imax =? 0) && negb (eqb (zb k) (zb (k - imax))) && zoneb k && (ibb k || (negb (zb k) && negb (eqb (zb (k - 1)) (zb k)) && (negb (eqb (zb (k + 1)) (zb k)) || negb (eqb (zb (k - imax + 1)) (zb k))))))%bool.
Definition mi1 (k : Z) : bool :=
  (negb (k / imax =? 0) && negb (eqb (zb k) (zb (k - imax))) && zoneb (k + 1) && (ibb k || (negb (zb (k - imax)) && eqb (zb (k - 1)) (zb (k - imax)) && (eqb (zb (k + 1)) (zb (k - imax)) || eqb (zb (k - imax + 1)) (zb (k - imax))))))%bool.
Definition mj0 (k : Z) : bool := (negb (k mod imax =? 0) && jbb k && negb (eqb (zb k) (zb (k - 1))) && zoneb k)%bool.
Definition mj1 (k : Z) : bool := (negb (k mod imax =? 0) && jbb k && negb (eqb (zb k) (zb (k - 1))) && zoneb (k + imax))%bool.
Definition cellf (k : Z) : cell := mkCell (zb k) (zoneb k) (ibb k) (jbb k) (mi0 k) (mi1 k) (mj0 k) (mj1 k) false false false.
Definition marks (k : Z) : Z := b2z (mi0 k) + b2z (mi1 k) + b2z (mj0 k) + b2z (mj1 k).
Fixpoint tally (n : nat) : Z := match n with O => 0 | S n' => tally n' + marks (Z.of_nat n') end.

Lemma divmod i j : 0 <= i < imax -> (i + j * imax) mod imax = i /\ (i + j * imax) / imax = j.
Proof. intro H. split; [rewrite Z.mod_add by lia; apply Z.mod_small, H|rewrite Z.div_add by lia; rewrite Z.div_small by exact H; lia]. Qed.
Lemma divmod_next i j : 0 <= i < imax -> (i = imax - 1 /\ (i + j * imax + 1) mod imax = 0 /\ (i + j * imax + 1) / imax = j + 1) \/ (i < imax - 1 /\ (i + j * imax + 1) mod imax = i + 1 /\ (i + j * imax + 1) / imax = j).
Proof.
  intro H. destruct (Z.eq_dec i (imax - 1)) as [E|E]; [left|right].
  - split; [exact E|]. replace (i + j * imax + 1) with (0 + (j + 1) * imax) by lia. apply divmod. lia.
  - split; [lia|]. replace (i + j * imax + 1) with ((i + 1) + j * imax) by lia. apply divmod. lia.
Qed.

Lemma i_marks_ok ij ib d count : imax <= ij -> ij + 1 < nreg ->
  let v0 := c_z (d ij) in let vb := c_z (d (ij - imax)) in let va := c_z (d (ij - 1)) in let vc := c_z (d (ij + 1)) in let vd := c_z (d (ij - imax + 1)) in
  let i0 := (negb (eqb v0 vb) && c_zone (d ij) && (ib || (negb v0 && negb (eqb va v0) && (negb (eqb vc v0) || negb (eqb vd v0)))))%bool in
  let i1 := (negb (eqb v0 vb) && c_zone (d (ij + 1)) && (ib || (negb vb && eqb va vb && (eqb vc vb || eqb vd vb))))%bool in
  exists d', i_marks imax jmax ij ib d count = Ok (d', count + b2z i0 + b2z i1) /\ d' ij = (let c := if i0 then with_i0 true (d ij) else d ij in if i1 then with_i1 true c else c) /\ forall q, q <> ij -> d' q = d q.
Proof.
  intros H1 H2. cbv zeta. unfold i_marks. rewrite (get_ok nreg d ij) by lia. rewrite bind_Ok. rewrite (get_ok nreg d (ij - imax)) by lia. rewrite bind_Ok.
  destruct (eqb (c_z (d ij)) (c_z (d (ij - imax)))) eqn:Ev; cbn [negb andb b2z].
  { exists d. rewrite !Z.add_0_r. auto. }
  rewrite (get_ok nreg d (ij + 1)) by lia. rewrite bind_Ok. destruct ib.
  - cbn [orb]. rewrite !andb_true_r.
    destruct (set_if nreg d ij (with_i0 true) (c_zone (d ij))) as [d1 [-> [A1 A2]]]; [lia|]. rewrite bind_Ok.
    destruct (set_if nreg d1 ij (with_i1 true) (c_zone (d (ij + 1)))) as [d2 [-> [B1 B2]]]; [lia|]. rewrite bind_Ok.
    exists d2. split; [reflexivity|]. split; [rewrite B1, A1; reflexivity|]. intros q Hq. rewrite B2, A2 by exact Hq. reflexivity.
  - rewrite (get_ok nreg d (ij - 1)) by lia. rewrite bind_Ok. rewrite (get_ok nreg d (ij - imax + 1)) by lia. rewrite bind_Ok. cbn [orb].
    set (m0 := (negb (c_z (d ij)) && negb (eqb (c_z (d (ij - 1))) (c_z (d ij))) && (negb (eqb (c_z (d (ij + 1))) (c_z (d ij))) || negb (eqb (c_z (d (ij - imax + 1))) (c_z (d ij)))))%bool).
    set (m1 := (negb (c_z (d (ij - imax))) && eqb (c_z (d (ij - 1))) (c_z (d (ij - imax))) && (eqb (c_z (d (ij + 1))) (c_z (d (ij - imax))) || eqb (c_z (d (ij - imax + 1))) (c_z (d (ij - imax)))))%bool).
    rewrite (andb_comm m0), (andb_comm m1).
    destruct (set_if nreg d ij (with_i0 true) (c_zone (d ij) && m0)%bool) as [d1 [-> [A1 A2]]]; [lia|]. rewrite bind_Ok.
    destruct (set_if nreg d1 ij (with_i1 true) (c_zone (d (ij + 1)) && m1)%bool) as [d2 [-> [B1 B2]]]; [lia|]. rewrite bind_Ok.
    exists d2. split; [reflexivity|]. split; [rewrite B1, A1; reflexivity|]. intros q Hq. rewrite B2, A2 by exact Hq. reflexivity.
Qed.
Lemma j_marks_ok ij d count : 1 <= ij -> ij + imax < nreg ->
  let df := negb (eqb (c_z (d ij)) (c_z (d (ij - 1)))) in
  let j0 := (df && c_zone (d ij))%bool in let j1 := (df && c_zone (d (ij + imax)))%bool in
  exists d', j_marks imax jmax ij d count = Ok (d', count + b2z j0 + b2z j1) /\ d' ij = (let c := if j0 then with_j0 true (d ij) else d ij in if j1 then with_j1 true c else c) /\ forall q, q <> ij -> d' q = d q.
Proof.
  intros H1 H2. cbv zeta. unfold j_marks. rewrite (get_ok nreg d ij) by lia. rewrite bind_Ok. rewrite (get_ok nreg d (ij - 1)) by lia. rewrite bind_Ok.
  destruct (eqb (c_z (d ij)) (c_z (d (ij - 1)))) eqn:Ev; cbn [negb andb b2z].
  { exists d. rewrite !Z.add_0_r. auto. }
  rewrite (get_ok nreg d (ij + imax)) by lia. rewrite bind_Ok.
  destruct (set_if nreg d ij (with_j0 true) (c_zone (d ij))) as [d1 [-> [A1 A2]]]; [lia|]. rewrite bind_Ok.
  destruct (set_if nreg d1 ij (with_j1 true) (c_zone (d (ij + imax)))) as [d2 [-> [B1 B2]]]; [lia|]. rewrite bind_Ok.
  exists d2. split; [reflexivity|]. split; [rewrite B1, A1; reflexivity|]. intros q Hq. rewrite B2, A2 by exact Hq. reflexivity.
Qed.

(** Before point m *)
Definition pre (m : Z) (row : Z -> bool) (d : Z -> cell) : Prop :=
  (forall k, 0 <= k < m -> d k = with_row (row k) (cellf k)) /\ d m = with_z (zb m) (with_zone (zoneb m) blank) /\ forall k, Z.max m imax < k <= m + imax -> d k = with_zone (zoneb k) blank.

Lemma init_point_ok i j jchunk row s : 0 <= i < imax -> 0 <= j < jmax -> (j =? jchunk) = ((j =? 0) || (j =? jmax - 1))%bool -> n_ichunk s = (if i =? 0 then 0 else imax - 1) -> (forall k, i + j * imax <= k -> row k = false) ->
  pre (i + j * imax) row (n_data s) -> n_count s = tally (Z.to_nat (i + j * imax)) ->
  exists s', init_point imax jmax above j jchunk i s = Ok s' /\ pre (i + j * imax + 1) row (n_data s') /\ n_count s' = tally (Z.to_nat (i + j * imax + 1)) /\ (i + 1 < imax -> n_ichunk s' = imax - 1).
Proof.
  intros Hi Hj Hjc Hic Hrow [P1 [P2 P3]] Hc. unfold init_point. set (m := i + j * imax) in *. destruct (divmod i j Hi) as [Em Ed]. fold m in Em, Ed.
  assert (Bm : 0 <= m < ijmax) by (unfold m, M_Cntr.ijmax; nia). assert (Rg : nreg = ijmax + imax + 1) by reflexivity.
  (* the new cell of the next row *)
  assert (Hzn : ((i <? imax - 1) && (j <? jmax - 1))%bool = zoneb (m + imax + 1)).
  { unfold zoneb. replace (m + imax + 1) with (i + (j + 1) * imax + 1) by (unfold m; lia). destruct (divmod_next i (j + 1) Hi) as [[E1 [-> ->]]|[E1 [-> ->]]].
    - replace (i <? imax - 1) with false by (symmetry; apply Z.ltb_ge; lia). reflexivity.
    - replace (i <? imax - 1) with true by (symmetry; apply Z.ltb_lt; lia). replace (1 <=? i + 1) with true by (symmetry; apply Z.leb_le; lia). replace (1 <=? j + 1) with true by (symmetry; apply Z.leb_le; lia). cbn. destruct (Z.ltb_spec j (jmax - 1)), (Z.ltb_spec (j + 1) jmax); auto; lia. }
  rewrite Hzn. rewrite put_ok by lia. rewrite bind_Ok. set (d1 := fun q => if q =? m + imax + 1 then with_zone (zoneb (m + imax + 1)) blank else n_data s q).
  assert (D1 : d1 (m + imax + 1) = with_zone (zoneb (m + imax + 1)) blank) by (unfold d1; rewrite Z.eqb_refl; reflexivity).
  assert (D1' : forall q, q <> m + imax + 1 -> d1 q = n_data s q) by (intros q Hq; unfold d1; apply Z.eqb_neq in Hq; rewrite Hq; reflexivity).
  destruct (put_if nreg d1 (m + 1) blank (m <? imax)) as [d2 [-> [D2 D2']]]; [lia|]. rewrite bind_Ok.
  assert (Hd2 : d2 (m + 1) = with_zone (zoneb (m + 1)) blank).
  { rewrite D2. destruct (Z.ltb_spec m imax) as [L|L].
    - unfold zoneb. destruct (divmod_next i j Hi) as [[E1 E2]|[E1 E2]]; fold m in E2; destruct E2 as [-> ->]; [reflexivity|]. assert (E0 : j = 0) by (unfold m in L; nia). rewrite E0. cbn [Z.leb Z.compare]. rewrite andb_false_r. reflexivity.
    - rewrite D1' by lia. apply P3. lia. }
  assert (Hz : (if m <? ijmax - 1 then get ijmax above (m + 1) else Ok false) = Ok (zb (m + 1))).
  { unfold zb. destruct (Z.ltb_spec m (ijmax - 1)); [rewrite get_ok by lia; replace (m + 1 <? ijmax) with true by (symmetry; apply Z.ltb_lt; lia); reflexivity|]. replace (m + 1 <? ijmax) with false by (symmetry; apply Z.ltb_ge; lia). reflexivity. }
  rewrite Hz, bind_Ok. destruct (set_if nreg d2 (m + 1) (with_z true) (zb (m + 1))) as [d3 [-> [D3 D3']]]; [lia|]. rewrite bind_Ok.
  assert (Hd3 : d3 (m + 1) = with_z (zb (m + 1)) (with_zone (zoneb (m + 1)) blank)) by (rewrite D3, Hd2; destruct (zb (m + 1)); reflexivity).
  assert (Old : forall k, 0 <= k < m -> d3 k = with_row (row k) (cellf k)) by (intros k Hk; rewrite D3', D2', D1' by lia; apply P1, Hk).
  assert (Cur : d3 m = with_z (zb m) (with_zone (zoneb m) blank)) by (rewrite D3', D2', D1' by lia; exact P2).
  assert (New : forall k, Z.max (m + 1) imax < k <= m + 1 + imax -> d3 k = with_zone (zoneb k) blank).
  { intros k Hk. rewrite D3', D2' by lia. destruct (Z.eq_dec k (m + imax + 1)) as [->|Nk]; [exact D1|]. rewrite D1' by exact Nk. apply P3. lia. }
  assert (Nxz : 1 <= m -> c_zone (d3 (m + imax)) = zoneb (m + imax)).
  { intro M1. destruct (Z.le_gt_cases (m + imax) (m + 1)) as [L|L]; [replace (m + imax) with (m + 1) by lia; rewrite Hd3; reflexivity|]. rewrite New by lia. reflexivity. }
  assert (Hib : (if i =? n_ichunk s then Ok true else do c <- get nreg d3 m; do c1 <- get nreg d3 (m + 1); Ok (negb (eqb (c_zone c) (c_zone c1)))) = Ok (ibb m)).
  { unfold ibb. rewrite Em, Hic. destruct (Z.eqb_spec i 0) as [E0|E0]; [rewrite E0; reflexivity|]. destruct (Z.eqb_spec i (imax - 1)) as [E1|E1]; [reflexivity|]. rewrite !get_ok by lia. rewrite !bind_Ok. rewrite Cur, Hd3. cbn [c_zone with_z with_zone orb]. f_equal.
    unfold zoneb. rewrite Em, Ed. destruct (divmod_next i j Hi) as [[X _]|[_ [X1 X2]]]; [lia|]. fold m in X1, X2. rewrite X1, X2. replace (1 <=? i) with true by (symmetry; apply Z.leb_le; lia). replace (1 <=? i + 1) with true by (symmetry; apply Z.leb_le; lia). rewrite eqb_reflx. reflexivity. }
  rewrite Hib, bind_Ok.
  assert (Hjb : (if j =? jchunk then Ok true else do c <- get nreg d3 m; do cm <- get nreg d3 (m + imax); Ok (negb (eqb (c_zone c) (c_zone cm)))) = Ok (jbb m)).
  { unfold jbb. rewrite Ed, Hjc. destruct (Z.eqb_spec j 0) as [E0|E0]; [reflexivity|]. destruct (Z.eqb_spec j (jmax - 1)) as [E1|E1]; [reflexivity|]. cbn [orb]. assert (M1 : 1 <= m) by (unfold m; nia). rewrite !get_ok by lia. rewrite !bind_Ok. rewrite Cur, Nxz by exact M1. cbn [c_zone with_z with_zone orb]. f_equal.
    unfold zoneb. rewrite Em, Ed. assert (X : (m + imax) mod imax = i /\ (m + imax) / imax = j + 1) by (replace (m + imax) with (i + (j + 1) * imax) by (unfold m; lia); apply divmod, Hi). destruct X as [-> ->].
    replace (1 <=? j) with true by (symmetry; apply Z.leb_le; lia). replace (1 <=? j + 1) with true by (symmetry; apply Z.leb_le; lia). replace (j <? jmax) with true by (symmetry; apply Z.ltb_lt; lia). replace (j + 1 <? jmax) with true by (symmetry; apply Z.ltb_lt; lia). rewrite eqb_reflx. reflexivity. }
  rewrite Hjb, bind_Ok.
  destruct (set_if nreg d3 m (with_ib true) (ibb m)) as [d4 [-> [D4 D4']]]; [lia|]. rewrite bind_Ok.
  destruct (set_if nreg d4 m (with_jb true) (jbb m)) as [d5 [-> [D5 D5']]]; [lia|]. rewrite bind_Ok.
  assert (Hd5 : d5 m = mkCell (zb m) (zoneb m) (ibb m) (jbb m) false false false false false false false) by (rewrite D5, D4, Cur; destruct (ibb m), (jbb m); reflexivity).
  assert (O5 : forall q, q <> m -> d5 q = d3 q) by (intros q Hq; rewrite D5', D4' by exact Hq; reflexivity).
  assert (Zold : forall k, 0 <= k < m -> c_z (d5 k) = zb k) by (intros k Hk; rewrite O5, Old by lia; reflexivity).
  (* the i-edge *)
  assert (Him : exists d6, (if j =? 0 then Ok (d5, n_count s) else i_marks imax jmax m (ibb m) d5 (n_count s)) = Ok (d6, n_count s + b2z (mi0 m) + b2z (mi1 m)) /\
    d6 m = mkCell (zb m) (zoneb m) (ibb m) (jbb m) (mi0 m) (mi1 m) false false false false false /\ forall q, q <> m -> d6 q = d3 q).
  { destruct (Z.eqb_spec j 0) as [E0|E0].
    - exists d5. unfold mi0, mi1. rewrite Ed, E0. cbn [negb andb Z.eqb b2z]. rewrite !Z.add_0_r. split; [reflexivity|]. split; [exact Hd5|exact O5].
    - assert (Lm : imax <= m) by (unfold m; nia). destruct (i_marks_ok m (ibb m) d5 (n_count s) Lm ltac:(lia)) as [d6 [-> [Q1 Q2]]].
      rewrite Hd5 in *. rewrite !(Zold (m - imax)), !(Zold (m - 1)) in * by lia. rewrite !(O5 (m + 1)) in * by lia. rewrite Hd3 in *. cbn [c_z c_zone with_z with_zone blank] in *.
      assert (Zd : c_z (d5 (m - imax + 1)) = zb (m - imax + 1)). { destruct (Z.eq_dec (m - imax + 1) m) as [->|N]; [rewrite Hd5; reflexivity|apply Zold; lia]. } rewrite Zd in *.
      exists d6. unfold mi0, mi1. rewrite Ed. replace (j =? 0) with false by (symmetry; apply Z.eqb_neq; exact E0). cbn [negb andb]. split; [reflexivity|]. split; [|intros q Hq; rewrite Q2 by exact Hq; apply O5, Hq]. rewrite Q1. cbv zeta.
      match goal with |- (if ?b then with_i1 true (if ?c then _ else _) else _) = _ => destruct b, c; reflexivity end. }
  destruct Him as [d6 [-> [D6 D6']]]. rewrite bind_Ok. cbn [fst snd].
  assert (Hjm : exists d7, (if (negb (i =? 0) && jbb m)%bool then j_marks imax jmax m d6 (n_count s + b2z (mi0 m) + b2z (mi1 m)) else Ok (d6, n_count s + b2z (mi0 m) + b2z (mi1 m))) = Ok (d7, n_count s + marks m) /\
    d7 m = cellf m /\ forall q, q <> m -> d7 q = d3 q).
  { unfold cellf, marks, mj0, mj1. rewrite Em. destruct (negb (i =? 0) && jbb m)%bool eqn:Ej; cbn [andb].
    - apply andb_true_iff in Ej as [Ei _]. apply negb_true_iff, Z.eqb_neq in Ei. assert (Lm : 1 <= m) by (unfold m; nia).
      destruct (j_marks_ok m d6 (n_count s + b2z (mi0 m) + b2z (mi1 m)) Lm ltac:(lia)) as [d7 [-> [Q1 Q2]]]. rewrite D6 in *. rewrite (D6' (m - 1)), (D6' (m + imax)), Nxz in * by lia. rewrite (Old (m - 1)) in * by lia. cbn [c_z c_zone with_row cellf] in *.
      exists d7. split; [do 2 f_equal; lia|]. split; [|intros q Hq; rewrite Q2 by exact Hq; apply D6', Hq]. rewrite Q1. cbv zeta.
      match goal with |- (if ?b then with_j1 true (if ?c then _ else _) else _) = _ => destruct b, c; reflexivity end.
    - exists d6. split; [cbn [b2z]; do 2 f_equal; lia|]. split; [exact D6|exact D6']. }
  destruct Hjm as [d7 [-> [D7 D7']]]. rewrite bind_Ok. cbn [fst snd]. eexists. split; [reflexivity|]. cbn [n_data n_count n_ichunk]. split; [|split].
  - split; [|split].
    + intros k Hk. destruct (Z.eq_dec k m) as [->|N]; [rewrite D7, Hrow by lia; reflexivity|]. rewrite D7' by exact N. apply Old. lia.
    + rewrite D7' by lia. exact Hd3.
    + intros k Hk. rewrite D7' by lia. apply New. exact Hk.
  - rewrite Hc. replace (Z.to_nat (m + 1)) with (S (Z.to_nat m)) by lia. cbn [tally]. rewrite Z2Nat.id by lia. reflexivity.
  - intro Hn. rewrite Hic. destruct (Z.eqb_spec i 0) as [->|E0]; [cbn [Z.eqb]; replace (imax <=? 0) with false by (symmetry; apply Z.leb_gt; lia); lia|]. replace (i =? imax - 1) with false by (symmetry; apply Z.eqb_neq; lia). reflexivity.
Qed.

Lemma rounds_ok {S} (Inv : Z -> S -> Prop) body lo hi : (forall i s, lo <= i < hi -> Inv i s -> exists s', body i s = Ok s' /\ Inv (i + 1) s') ->
  forall k i s, lo <= i -> i + Z.of_nat k <= hi -> Inv i s -> exists s', rounds k i body s = Ok s' /\ Inv (i + Z.of_nat k) s'.
Proof.
  intro H. induction k as [|k IH]; intros i s Li Hi Is; [exists s; rewrite Z.add_0_r; auto|]. cbn [rounds]. destruct (H i s ltac:(lia) Is) as [s1 [-> I1']]. rewrite bind_Ok. destruct (IH (i + 1) s1 ltac:(lia) ltac:(lia) I1') as [s2 [E2 I2]]. exists s2. split; [exact E2|]. replace (i + Z.of_nat (Datatypes.S k)) with (i + 1 + Z.of_nat k) by lia. exact I2.
Qed.
Lemma marks_nonneg k : 0 <= marks k. Proof. unfold marks, b2z. destruct (mi0 k), (mi1 k), (mj0 k), (mj1 k); lia. Qed.
Lemma tally_mono n m : (n <= m)%nat -> tally n <= tally m.
Proof. induction 1 as [|m L IH]; [lia|]. cbn. pose proof (marks_nonneg (Z.of_nat m)). lia. Qed.
Lemma tally_zero n k : tally n = 0 -> 0 <= k < Z.of_nat n -> marks k = 0.
Proof.
  intros H Hk. pose proof (tally_mono (S (Z.to_nat k)) n ltac:(lia)) as M. cbn in M. rewrite Z2Nat.id in M by lia. pose proof (tally_mono 0 (Z.to_nat k) ltac:(lia)) as M0. cbn in M0. pose proof (marks_nonneg k). lia.
Qed.

Definition row_inv (j : Z) (s : (Z -> cell) * Z * Z * bool) : Prop :=
  let '(d, count, jchunk, started) := s in
  exists R, pre (j * imax) (fun k => started && (k =? R * imax))%bool d /\ count = tally (Z.to_nat (j * imax)) /\ started = negb (count =? 0) /\ (j < jmax -> jchunk = if j =? 0 then 0 else jmax - 1) /\
    (started = true -> 0 <= R < j /\ tally (Z.to_nat (R * imax)) = 0).
Lemma init_row_ok j s : 0 <= j < jmax -> row_inv j s -> exists s', init_row imax jmax above j s = Ok s' /\ row_inv (j + 1) s'.
Proof.
  intros Hj. destruct s as [[[d count] jchunk] started]. intros [R [Hp [Hc [Hs [Hch HR]]]]]. unfold init_row. set (row := fun k => (started && (k =? R * imax))%bool) in *. specialize (Hch ltac:(lia)).
  assert (Hjc : (j =? jchunk) = ((j =? 0) || (j =? jmax - 1))%bool) by (rewrite Hch; destruct (Z.eqb_spec j 0) as [->|]; reflexivity).
  assert (Hrow : forall k, j * imax <= k -> row k = false).
  { intros k Hk. unfold row. destruct started eqn:Es; [|reflexivity]. destruct (HR eq_refl) as [HR1 _]. cbn. apply Z.eqb_neq. nia. }
  destruct (rounds_ok (fun i s => pre (i + j * imax) row (n_data s) /\ n_count s = tally (Z.to_nat (i + j * imax)) /\ (i < imax -> n_ichunk s = if i =? 0 then 0 else imax - 1)) (init_point imax jmax above j jchunk) 0 imax) with (k := Z.to_nat imax) (i := 0) (s := mkInit d count 0 false) as [s' [-> [Q1 [Q2 _]]]].
  - intros i s Hi [A [B C]]. destruct (init_point_ok i j jchunk row s Hi Hj Hjc (C ltac:(lia)) ltac:(intros; apply Hrow; lia) A B) as [s' [E [A' [B' C']]]]. exists s'. split; [exact E|]. replace (i + 1 + j * imax) with (i + j * imax + 1) by lia. split; [exact A'|]. split; [exact B'|]. intro Hn. rewrite (C' Hn). replace (i + 1 =? 0) with false by (symmetry; apply Z.eqb_neq; lia). reflexivity.
  - lia.
  - lia.
  - cbn [n_data n_count n_ichunk]. rewrite Z.add_0_l. split; [exact Hp|]. split; [exact Hc|]. reflexivity.
  - rewrite bind_Ok. replace (0 + Z.of_nat (Z.to_nat imax) + j * imax) with ((j + 1) * imax) in * by lia. set (jc := if j =? jchunk then jchunk + (jmax - 1) + (if jmax <=? jchunk then 1 else 0) else jchunk).
    assert (Hjc' : j + 1 < jmax -> jc = if j + 1 =? 0 then 0 else jmax - 1).
    { intro Hn. replace (j + 1 =? 0) with false by (symmetry; apply Z.eqb_neq; lia). unfold jc. rewrite Hch. destruct (Z.eqb_spec j 0) as [->|E0]; [cbn [Z.eqb]; replace (jmax <=? 0) with false by (symmetry; apply Z.leb_gt; lia); lia|]. replace (j =? jmax - 1) with false by (symmetry; apply Z.eqb_neq; lia). reflexivity. }
    pose proof (tally_mono (Z.to_nat (j * imax)) (Z.to_nat ((j + 1) * imax)) ltac:(nia)) as Mo. pose proof (tally_mono 0 (Z.to_nat (j * imax)) ltac:(lia)) as M0. cbn [tally] in M0.
    destruct (Z.eqb_spec (n_count s') 0) as [E0|E0]; cbn [negb andb].
    + eexists. split; [reflexivity|]. cbn. assert (Es : started = false) by (rewrite Hs; replace (count =? 0) with true by (symmetry; apply Z.eqb_eq; lia); reflexivity).
      exists R. split; [exact Q1|]. split; [exact Q2|]. split; [rewrite E0, Es; reflexivity|]. split; [exact Hjc'|]. congruence.
    + destruct started eqn:Es; cbn [negb].
      * eexists. split; [reflexivity|]. cbn. exists R. split; [exact Q1|]. split; [exact Q2|]. split; [replace (n_count s' =? 0) with false by (symmetry; apply Z.eqb_neq; exact E0); reflexivity|]. split; [exact Hjc'|]. intros _. destruct (HR eq_refl). split; [lia|assumption].
      * rewrite change_eq by (unfold M_Cntr.nreg; nia). rewrite bind_Ok. eexists. split; [reflexivity|]. cbn. exists j. destruct Q1 as [P1 [P2 P3]]. split; [split; [|split]|].
        -- intros k Hk. specialize (P1 k Hk). destruct (Z.eqb_spec k (j * imax)) as [->|N]; [rewrite P1; reflexivity|exact P1].
        -- replace ((j + 1) * imax =? j * imax) with false by (symmetry; apply Z.eqb_neq; nia). exact P2.
        -- intros k Hk. replace (k =? j * imax) with false by (symmetry; apply Z.eqb_neq; nia). apply P3, Hk.
        -- split; [exact Q2|]. split; [replace (n_count s' =? 0) with false by (symmetry; apply Z.eqb_neq; exact E0); reflexivity|]. split; [exact Hjc'|]. intros _. split; [lia|]. symmetry in Hs. apply negb_false_iff, Z.eqb_eq in Hs. lia.
Qed.

Lemma data_init_ok mem : exists d R, data_init imax jmax above mem = Ok (mkT d (fun _ => None) (tally (Z.to_nat ijmax)) 0 0 0) /\
  (forall k, 0 <= k < ijmax -> d k = with_done ((k =? 0) && (tally (Z.to_nat ijmax) =? 0))%bool (with_row (negb (tally (Z.to_nat ijmax) =? 0) && (k =? R * imax))%bool (cellf k))) /\
  (tally (Z.to_nat ijmax) <> 0 -> 0 <= R < jmax /\ tally (Z.to_nat (R * imax)) = 0).
Proof.
  assert (B0 : 0 < ijmax) by (unfold M_Cntr.ijmax; nia). unfold data_init. rewrite get_ok by lia. rewrite bind_Ok. rewrite put_ok by (unfold M_Cntr.nreg, M_Cntr.ijmax in *; lia). rewrite bind_Ok.
  destruct (rounds_ok row_inv (init_row imax jmax above) 0 jmax init_row_ok (Z.to_nat jmax) 0 (fun m => if m =? 0 then with_z (above 0) blank else mem m, 0, 0, false)) as [[[[d count] jc] st] [-> [R [[P1 _] [Hc [Hs [_ HR]]]]]]]; [lia|lia| |].
  { exists 0. cbn [andb]. split; [|split; [reflexivity|split; [reflexivity|split; [reflexivity|discriminate]]]]. rewrite Z.mul_0_l. split; [intros; lia|]. split; [|intros; lia]. cbn [Z.eqb]. unfold zb, zoneb. replace (0 <? ijmax) with true by (symmetry; apply Z.ltb_lt; exact B0). rewrite Z.mod_0_l by lia. reflexivity. }
  rewrite bind_Ok. replace ((0 + Z.of_nat (Z.to_nat jmax)) * imax) with ijmax in * by (unfold M_Cntr.ijmax; lia). rewrite Z2Nat.id in HR by lia.
  destruct (set_if nreg d 0 (with_done true) (count =? 0)) as [d' [-> [D1 D2]]]; [unfold M_Cntr.nreg, M_Cntr.ijmax in *; lia|]. rewrite bind_Ok. exists d', R. rewrite <- Hc. split; [reflexivity|]. split.
  - intros k Hk. destruct (Z.eqb_spec k 0) as [->|N]; cbn [andb].
    + rewrite D1, P1 by exact Hk. rewrite Hs. destruct (count =? 0); reflexivity.
    + rewrite D2, P1 by assumption. rewrite Hs. reflexivity.
  - intro N. apply HR. rewrite Hs. apply negb_true_iff, Z.eqb_neq, N.
Qed.
End Fill.

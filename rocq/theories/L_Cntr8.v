(** The marks set by data_init: all inward sides of the boundary that are cut, and at least one edge of every closed curve *)
From Coq Require Import Lia.
From Verif Require Import M_Base M_Cntr L_Cntr1 L_Cntr2 L_Cntr3 L_Cntr4 L_Cntr5 L_Cntr6 L_Cntr7.

Section Start.
Variables imax jmax : Z.
Variable above : Z -> bool.
Hypothesis I2 : 2 <= imax.
Hypothesis J2 : 2 <= jmax.
Notation nreg := (nreg imax jmax).
Notation ijmax := (ijmax imax jmax).
Notation high := (high imax above).
Notation ix := (ix imax).
Notation grid := (grid imax jmax).
Notation edge_ok := (edge_ok imax jmax).
Notation valid := (valid imax jmax).
Notation cut := (cut high).
Notation col := (col high).
Notation mk := (mk imax).
Notation pos := (pos imax).
Notation start := (start imax jmax above).
Notation cnt := (cnt imax jmax).
Notation zb := (zb imax jmax above).
Notation zoneb := (zoneb imax jmax).
Notation cellf := (cellf imax jmax above).
Notation tally := (tally imax jmax above).
Definition initb (s : site) : bool := mark_of (sd s) (cellf (ix s)).

Lemma I1' : 1 <= imax. Proof. lia. Qed.
Lemma zb_mesh x y : 0 <= x < imax -> 0 <= y < jmax -> zb (x + y * imax) = high (x, y).
Proof. intros Hx Hy. unfold L_Cntr7.zb, L_Cntr2.high, flat. cbn [fst snd]. replace (x + y * imax <? ijmax) with true by (symmetry; apply Z.ltb_lt; unfold M_Cntr.ijmax; nia). reflexivity. Qed.
Lemma zoneb_at x y : 0 <= x < imax -> zoneb (x + y * imax) = ((1 <=? x) && (1 <=? y) && (y <? jmax))%bool.
Proof. intro Hx. unfold L_Cntr7.zoneb. destruct (divmod imax I1' x y Hx) as [-> ->]. reflexivity. Qed.
Lemma zoneb_right x y : 0 <= x < imax -> zoneb (x + y * imax + 1) = ((x <? imax - 1) && (1 <=? y) && (y <? jmax))%bool.
Proof.
  intro Hx. unfold L_Cntr7.zoneb. destruct (divmod_next imax I1' x y Hx) as [[E [-> ->]]|[E [-> ->]]].
  - replace (x <? imax - 1) with false by (symmetry; apply Z.ltb_ge; lia). reflexivity.
  - replace (x <? imax - 1) with true by (symmetry; apply Z.ltb_lt; lia). replace (1 <=? x + 1) with true by (symmetry; apply Z.leb_le; lia). reflexivity.
Qed.
(** The marks in terms of the mesh *)
Definition markp (s : site) : Prop :=
  let x := sx s in let y := sy s in
  match sd s with
  | Le => 1 <= y /\ 1 <= x /\ high (x, y) = negb (high (x, y - 1)) /\ (x = imax - 1 \/ high (x, y) = false /\ high (x - 1, y) = true /\ (high (x + 1, y) = true \/ high (x + 1, y - 1) = true))
  | Ri => 1 <= y /\ x < imax - 1 /\ high (x, y) = negb (high (x, y - 1)) /\ (x = 0 \/ high (x, y - 1) = false /\ high (x - 1, y) = false /\ (high (x + 1, y) = false \/ high (x + 1, y - 1) = false))
  | Dn => 1 <= x /\ y = jmax - 1 /\ high (x, y) = negb (high (x - 1, y))
  | Up => 1 <= x /\ y = 0 /\ high (x, y) = negb (high (x - 1, y))
  end.
Lemma eqb_negb a b : negb (eqb a b) = true <-> a = negb b. Proof. destruct a, b; cbn; split; congruence. Qed.
Lemma initb_spec s : grid s -> initb s = true <-> markp s.
Proof.
  intros [Gx Gy]. unfold initb, markp, mark_of, L_Cntr7.cellf. unfold L_Cntr2.ix. destruct s as [x y dd]. cbn [sx sy sd] in *. destruct (divmod imax I1' x y Gx) as [Em Ed].
  destruct dd; cbn [c_i0 c_i1 c_j0 c_j1].
  - unfold mi0, ibb. rewrite Em, Ed, zoneb_at by exact Gx. rewrite !andb_true_iff, orb_true_iff, eqb_negb. split.
    + intros [[[H1 H2] [[H3 _] _]] H4]. apply negb_true_iff, Z.eqb_neq in H1. apply Z.leb_le in H3. rewrite zb_mesh in * by lia. replace (x + y * imax - imax) with (x + (y - 1) * imax) in * by lia. rewrite (zb_mesh x (y - 1)) in * by lia. split; [lia|]. split; [exact H3|]. split; [exact H2|].
      destruct (Z.eq_dec x (imax - 1)) as [Ex|Ex]; [left; exact Ex|right]. destruct H4 as [H4|H4]; [apply orb_true_iff in H4 as [H4|H4]; apply Z.eqb_eq in H4; lia|]. rewrite !andb_true_iff in H4. destruct H4 as [[H4 H5] H6]. apply negb_true_iff in H4.
      replace (x + y * imax - 1) with ((x - 1) + y * imax) in * by lia. replace (x + y * imax + 1) with ((x + 1) + y * imax) in * by lia. replace (x + (y - 1) * imax + 1) with ((x + 1) + (y - 1) * imax) in * by lia. rewrite !zb_mesh in * by lia. rewrite H4 in *. split; [reflexivity|]. destruct (high (x - 1, y)), (high (x + 1, y)), (high (x + 1, y - 1)); cbn in *; auto; discriminate.
    + intros [H1 [H3 [H2 H4]]]. rewrite zb_mesh by lia. replace (x + y * imax - imax) with (x + (y - 1) * imax) by lia. rewrite (zb_mesh x (y - 1)) by lia. split; [split; [split; [apply negb_true_iff, Z.eqb_neq; lia|exact H2]|repeat split; [apply Z.leb_le|apply Z.leb_le|apply Z.ltb_lt]; lia]|].
      destruct H4 as [->|[H4 [H5 H6]]]; [left; rewrite Z.eqb_refl; apply orb_true_r|]. destruct (Z.eq_dec x (imax - 1)) as [->|Ex]; [left; rewrite Z.eqb_refl; apply orb_true_r|right].
      replace (x + y * imax - 1) with ((x - 1) + y * imax) by lia. replace (x + y * imax + 1) with ((x + 1) + y * imax) by lia. replace (x + (y - 1) * imax + 1) with ((x + 1) + (y - 1) * imax) by lia. rewrite !zb_mesh by lia. rewrite H4, H5. destruct H6 as [-> | ->]; cbn; rewrite ?orb_true_r; reflexivity.
  - unfold mi1, ibb. rewrite Em, Ed, zoneb_right by exact Gx. rewrite !andb_true_iff, orb_true_iff, eqb_negb. split.
    + intros [[[H1 H2] [[H3 _] _]] H4]. apply negb_true_iff, Z.eqb_neq in H1. apply Z.ltb_lt in H3. rewrite zb_mesh in * by lia. replace (x + y * imax - imax) with (x + (y - 1) * imax) in * by lia. rewrite (zb_mesh x (y - 1)) in * by lia. split; [lia|]. split; [exact H3|]. split; [exact H2|].
      destruct (Z.eq_dec x 0) as [Ex|Ex]; [left; exact Ex|right]. destruct H4 as [H4|H4]; [apply orb_true_iff in H4 as [H4|H4]; apply Z.eqb_eq in H4; lia|]. rewrite !andb_true_iff in H4. destruct H4 as [[H4 H5] H6]. apply negb_true_iff in H4.
      replace (x + y * imax - 1) with ((x - 1) + y * imax) in * by lia. replace (x + y * imax + 1) with ((x + 1) + y * imax) in * by lia. replace (x + (y - 1) * imax + 1) with ((x + 1) + (y - 1) * imax) in * by lia. rewrite !zb_mesh in * by lia. rewrite H4 in *. split; [reflexivity|]. destruct (high (x - 1, y)), (high (x + 1, y)), (high (x + 1, y - 1)); cbn in *; auto; discriminate.
    + intros [H1 [H3 [H2 H4]]]. rewrite zb_mesh by lia. replace (x + y * imax - imax) with (x + (y - 1) * imax) by lia. rewrite (zb_mesh x (y - 1)) by lia. split; [split; [split; [apply negb_true_iff, Z.eqb_neq; lia|exact H2]|repeat split; [apply Z.ltb_lt|apply Z.leb_le|apply Z.ltb_lt]; lia]|].
      destruct H4 as [->|[H4 [H5 H6]]]; [left; reflexivity|]. destruct (Z.eq_dec x 0) as [->|Ex]; [left; reflexivity|right].
      replace (x + y * imax - 1) with ((x - 1) + y * imax) by lia. replace (x + y * imax + 1) with ((x + 1) + y * imax) by lia. replace (x + (y - 1) * imax + 1) with ((x + 1) + (y - 1) * imax) by lia. rewrite !zb_mesh by lia. rewrite H4, H5. destruct H6 as [-> | ->]; cbn; rewrite ?orb_true_r; reflexivity.
  - unfold mj1, jbb. rewrite Em, Ed. replace (x + y * imax + imax) with (x + (y + 1) * imax) by lia. rewrite zoneb_at by exact Gx. rewrite !andb_true_iff, orb_true_iff, eqb_negb. split.
    + intros [[[H1 H2] H3] [[H4 _] H5]]. apply Z.leb_le in H4. apply Z.ltb_lt in H5. replace (x + y * imax - 1) with ((x - 1) + y * imax) in * by lia. rewrite !zb_mesh in * by lia. split; [exact H4|]. split; [|exact H3]. destruct H2 as [H2|H2]; apply Z.eqb_eq in H2; lia.
    + intros [H1 [-> H3]]. replace (x + 0 * imax - 1) with ((x - 1) + 0 * imax) in * by lia. rewrite !zb_mesh by lia. repeat split; [apply negb_true_iff, Z.eqb_neq; lia|left; reflexivity|exact H3|apply Z.leb_le; lia|apply Z.ltb_lt; lia].
  - unfold mj0, jbb. rewrite Em, Ed. rewrite zoneb_at by exact Gx. rewrite !andb_true_iff, orb_true_iff, eqb_negb. split.
    + intros [[[H1 H2] H3] [[H4 H5] _]]. apply Z.leb_le in H4, H5. replace (x + y * imax - 1) with ((x - 1) + y * imax) in * by lia. rewrite !zb_mesh in * by lia. split; [exact H4|]. split; [|exact H3]. destruct H2 as [H2|H2]; apply Z.eqb_eq in H2; lia.
    + intros [H1 [-> H3]]. replace (x + (jmax - 1) * imax - 1) with ((x - 1) + (jmax - 1) * imax) in * by lia. rewrite !zb_mesh by lia. repeat split; [apply negb_true_iff, Z.eqb_neq; lia|right; apply Z.eqb_refl|exact H3|apply Z.leb_le; lia|apply Z.leb_le; lia|apply Z.ltb_lt; lia].
Qed.
Lemma init_start s : grid s -> initb s = true -> start s.
Proof.
  intros G H. apply initb_spec in H; [|exact G]. destruct G as [Gx Gy]. unfold L_Cntr3.start, L_Cntr1.valid, L_Cntr1.cut, L_Cntr1.col. destruct s as [x y []]; cbn [markp sx sy sd zone_of flip opp fst snd pt0 pt1 isj] in *.
  - destruct H as [H1 [H2 [H3 H4]]]. split; [lia|]. split; [rewrite H3, negb_involutive; reflexivity|]. destruct H4 as [->|[H4 _]]; [left; lia|right]. rewrite H4 in H3. destruct (high (x, y - 1)); auto; discriminate.
  - destruct H as [H1 [H2 [H3 H4]]]. split; [lia|]. split; [exact H3|]. destruct H4 as [->|[H4 _]]; [left; lia|right]. rewrite H4 in H3. auto.
  - destruct H as [H1 [-> H3]]. split; [lia|]. split; [rewrite H3, negb_involutive; reflexivity|]. left. lia.
  - destruct H as [H1 [-> H3]]. split; [lia|]. split; [exact H3|]. left. lia.
Qed.
Lemma init_boundary s : valid s -> cut s -> ~ valid (flip s) -> initb s = true.
Proof.
  intros V C N. pose proof (edge_grid imax jmax s (valid_edge _ _ _ V)) as G. apply initb_spec; [exact G|]. destruct G as [Gx Gy]. unfold L_Cntr1.valid, L_Cntr1.cut in *. destruct s as [x y []]; cbn [markp sx sy sd zone_of flip opp fst snd pt0 pt1 isj] in *.
  - split; [lia|]. split; [lia|]. split; [rewrite C, negb_involutive; reflexivity|left; lia].
  - split; [lia|]. split; [lia|]. split; [exact C|left; lia].
  - split; [lia|]. split; [lia|]. rewrite C, negb_involutive. reflexivity.
  - split; [lia|]. split; [lia|]. exact C.
Qed.

(** Every closed curve has a mark *)
Section Loop.
Variable T : Z * Z -> bool.
Notation step := (step high T).
Notation trail := (trail imax jmax high T).
Lemma loop_next s l x : trail s l s -> In x l -> In (step x) l.
Proof.
  intros H Hx. apply In_nth_error in Hx as [k Hk]. assert (K1 : nth_error (l ++ [s]) k = Some x) by (rewrite nth_error_app1; [exact Hk|apply nth_error_Some; congruence]).
  assert (Lk : (k < length l)%nat) by (apply nth_error_Some; congruence). destruct (nth_error (l ++ [s]) (S k)) as [y|] eqn:K2; [|apply nth_error_None in K2; rewrite app_length in K2; cbn in K2; lia].
  destruct (trail_nth _ _ _ _ _ _ _ H k x y K1 K2) as [_ E]. rewrite <- E. apply nth_error_In in K2. apply in_app_or in K2 as [K2|[<-|[]]]; [exact K2|]. destruct l as [|z l]; [destruct k; discriminate|]. rewrite (trail_head _ _ _ _ _ _ _ _ H). left. reflexivity.
Qed.
Lemma loop_prev s l x : trail s l s -> In x l -> exists p, In p l /\ step p = x.
Proof.
  intros H Hx. apply In_nth_error in Hx as [k Hk]. assert (Lk : (k < length l)%nat) by (apply nth_error_Some; congruence). destruct k as [|k].
  - destruct l as [|z l]; [discriminate|]. cbn in Hk. injection Hk as ->. pose proof (trail_head _ _ _ _ _ _ _ _ H). subst x. destruct (exists_last (l := s :: l) ltac:(discriminate)) as [l' [p Ep]]. rewrite Ep in H. apply trail_unsnoc in H as [_ [_ H]]. exists p. split; [rewrite Ep; apply in_or_app; right; left; reflexivity|symmetry; exact H].
  - destruct (nth_error l k) as [p|] eqn:Hp; [|apply nth_error_None in Hp; lia]. assert (K1 : nth_error (l ++ [s]) k = Some p) by (rewrite nth_error_app1; [exact Hp|lia]). assert (K2 : nth_error (l ++ [s]) (S k) = Some x) by (rewrite nth_error_app1; [exact Hk|lia]).
    destruct (trail_nth _ _ _ _ _ _ _ H k p x K1 K2) as [A E]. exists p. auto.
Qed.
Lemma min_by {A} (f : A -> Z) l : l <> [] -> exists x, In x l /\ forall y, In y l -> f x <= f y.
Proof.
  induction l as [|x l IH]; [congruence|]. intros _. destruct l as [|z l]; [exists x; split; [left; reflexivity|intros y [<-|[]]; lia]|]. destruct (IH ltac:(discriminate)) as [m [Hm Lm]]. destruct (Z.le_gt_cases (f x) (f m)).
  - exists x. split; [left; reflexivity|]. intros y [<-|Hy]; [lia|]. specialize (Lm y Hy). lia.
  - exists m. split; [right; exact Hm|]. intros y [<-|Hy]; [lia|exact (Lm y Hy)].
Qed.
Lemma loop_mark s l : cut s -> col s = true -> trail s l s -> l <> [] -> exists u, In u l /\ grid u /\ initb u = true.
Proof.
  intros C B H L. destruct (trail_col _ _ _ _ _ _ _ H C) as [_ [_ Cl]]. assert (Vl : forall x, In x l -> valid x) by exact (trail_valid _ _ _ _ _ _ _ H).
  destruct (min_by (fun x => snd (zone_of x)) l L) as [w [Hw Lw]]. set (Y := snd (zone_of w)) in *.
  assert (Row : forall x, In x l -> Y <= snd (zone_of x) /\ Y <= snd (zone_of (flip x))).
  { intros x Hx. split; [exact (Lw x Hx)|]. destruct (loop_prev s l x H Hx) as [p [Hp <-]]. destruct (step_ok _ _ high T p (Vl p Hp)) as [_ [_ ->]]. exact (Lw p Hp). }
  assert (Ex : exists u, In u (filter (fun x => negb (isj (sd x)) && (sy x =? Y))%bool l)).
  { destruct (isj (sd w)) eqn:Jw.
    - exists (step w). apply filter_In. pose proof (loop_next s l w H Hw) as Hn. split; [exact Hn|]. destruct (Row w Hw) as [_ R1]. destruct (Row _ Hn) as [R2 _]. unfold Y in *. unfold L_Cntr1.step in *. destruct w as [x y []]; try discriminate; destruct (way high T _) as [[]|]; cbn in *; apply Z.eqb_eq || (exfalso; lia); lia.
    - exists w. apply filter_In. split; [exact Hw|]. rewrite Jw. cbn. apply Z.eqb_eq. unfold Y. destruct w as [x y []]; try discriminate; reflexivity. }
  destruct Ex as [u0 Hu0]. destruct (min_by sx (filter (fun x => negb (isj (sd x)) && (sy x =? Y))%bool l)) as [u [Hu Lu]]; [intro X; rewrite X in Hu0; destruct Hu0|].
  assert (Left : forall x, In x l -> isj (sd x) = false -> sy x = Y -> sx u <= sx x) by (intros x Hx Jx Yx; apply Lu, filter_In; split; [exact Hx|rewrite Jx, Yx, Z.eqb_refl; reflexivity]).
  clear Hu0 u0 Lu. apply filter_In in Hu as [Hu Hj]. apply andb_true_iff in Hj as [Hj Hy]. apply negb_true_iff in Hj. apply Z.eqb_eq in Hy. exists u. split; [exact Hu|]. pose proof (Vl u Hu) as Vu. pose proof (edge_grid imax jmax u (valid_edge _ _ _ Vu)) as G. split; [exact G|]. apply initb_spec; [exact G|].
  destruct (Cl u Hu) as [Cu Bu]. rewrite B in Bu. destruct (loop_prev s l u H Hu) as [p [Hp Ep]]. pose proof (loop_next s l u H Hu) as Hn. destruct (Cl p Hp) as [Cp _]. pose proof (step_back high T p Cp) as Sb. rewrite Ep in Sb.
  assert (Vf : valid (flip u)) by (rewrite <- Ep; apply (step_ok _ _ high T p (Vl p Hp))).
  destruct (Row _ Hn) as [Rn _]. destruct (Row _ Hp) as [Rp Rp']. pose proof (Left _ Hn) as Ln. pose proof (Left _ Hp) as Lp. apply (f_equal flip) in Sb. rewrite flip_flip in Sb. rewrite <- Sb in Lp, Rp, Rp'.
  clear - Cu Bu Vu Vf Hj Hy Rn Ln Lp Rp Rp' Sb. unfold L_Cntr1.valid in *. unfold L_Cntr1.step, way, L_Cntr1.cut, L_Cntr1.col in *. destruct u as [x y []]; try discriminate; cbn [markp sx sy sd zone_of flip opp fst snd pt0 pt1 pt2 pt3 isj] in *; subst y.
  - rewrite Bu in *. destruct (high (x, Y)) eqn:E0; [discriminate|]. split; [lia|]. split; [lia|]. split; [reflexivity|right]. split; [reflexivity|]. split.
    + destruct (high (x - 1, Y)); [reflexivity|]. exfalso. cbn in Rn, Ln. destruct (high (x - 1, Y - 1)); cbn in *; try lia; specialize (Ln eq_refl eq_refl); lia.
    + destruct (high (x + 1, Y)), (high (x + 1, Y - 1)); auto. exfalso. cbn in Rp'. lia.
  - rewrite Bu in *. destruct (high (x, Y - 1)) eqn:E0; [discriminate|]. split; [lia|]. split; [lia|]. split; [reflexivity|right]. split; [reflexivity|]. split.
    + destruct (high (x - 1, Y)); [|reflexivity]. exfalso. cbn in Rp, Rp', Lp. destruct (high (x - 1, Y - 1)); cbn in *; try lia; specialize (Lp eq_refl eq_refl); lia.
    + destruct (high (x + 1, Y)), (high (x + 1, Y - 1)); auto. exfalso. cbn in Rn. lia.
Qed.
End Loop.
End Start.

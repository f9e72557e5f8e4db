(** Which segments are drawn *)
From Coq Require Import Lia.
From Verif Require Import M_Base M_Cntr M_Extract S_Cntr S_Lines L_Cntr1 L_Cntr2 L_Cntr4 L_Cntr7 L_Cntr9 L_Cntr10 L_Cntr11 L_Extract.

Lemma destruct_last {A} (l : list A) : l = [] \/ exists l' x, l = l' ++ [x].
Proof. destruct l as [|a l]; [left; reflexivity|]. right. destruct (@exists_last _ (a :: l)) as [l' [x E]]; [discriminate|]. eauto. Qed.
Lemma same_side_refl e : same_side e e. Proof. left. reflexivity. Qed.
Lemma same_side_sym e f : same_side e f -> same_side f e.
Proof. intros [->| ->]; [left; reflexivity|right; destruct e; reflexivity]. Qed.
Lemma same_side_trans e f g : same_side e f -> same_side f g -> same_side e g.
Proof. intros [->| ->] [->| ->]; unfold same_side; destruct e; cbn; auto. Qed.

Section Sides.
Variables imax jmax : Z.
Variable above : Z -> bool.
Hypothesis I2 : 2 <= imax.
Hypothesis J2 : 2 <= jmax.
Notation high := (high imax above).
Notation flat := (flat imax).
Notation ends := (ends imax).
Notation edge_ok := (edge_ok imax jmax).
Notation valid := (valid imax jmax).
Notation cut := (cut high).
Notation trail := (trail imax jmax high).
Notation step := (step high).
Notation side := (side imax jmax).
Notation crossed := (crossed above).
Notation side_of_cell := (side_of_cell imax jmax).
Notation w_points := (w_points imax).

Lemma ends_flip_same s : same_side (ends s) (ends (flip s)).
Proof. rewrite ends_flip. right. reflexivity. Qed.
Lemma same_cell q e f : same_side e f -> side_of_cell q e -> side_of_cell q f.
Proof. intros [->| ->]; [auto|apply swap_cell]. Qed.
Lemma same_crossed e f : same_side e f -> crossed e -> crossed f.
Proof. intros [->| ->]; [auto|]. unfold S_Cntr.crossed. destruct e. cbn. congruence. Qed.
(** The site on side e that looks into cell q *)
Lemma cell_site q e : side_of_cell q e -> exists s, valid s /\ same_side e (ends s) /\ cell_of (zone_of s) = q.
Proof.
  intros [[Q1 Q2] [Sd [P1 P2]]]. destruct (side_site imax jmax I2 J2 e Sd) as [s [Os ->]]. destruct q as [i j]. cbn [fst snd] in *. unfold S_Cntr.point_of_cell in P1, P2. cbn [fst snd] in *.
  assert (K : zone_of s = (i + 1, j + 1) \/ zone_of (flip s) = (i + 1, j + 1)).
  { revert Os P1 P2. destruct s as [x y []]; unfold L_Cntr1.edge_ok, L_Cntr2.ends, L_Cntr2.flat, flip; cbn [isj sd sx sy pt0 pt1 fst snd zone_of opp]; intros Os P1 P2.
    - destruct (colrow imax I2 x (y - 1)) as [A B]; [lia|]. destruct (colrow imax I2 x y) as [C D]; [lia|]. rewrite A, B in P1. rewrite C, D in P2. assert (x = i \/ x = i + 1) as [->| ->] by lia; [right|left]; f_equal; lia.
    - destruct (colrow imax I2 x (y - 1)) as [A B]; [lia|]. destruct (colrow imax I2 x y) as [C D]; [lia|]. rewrite C, D in P1. rewrite A, B in P2. assert (x = i \/ x = i + 1) as [->| ->] by lia; [left|right]; f_equal; lia.
    - destruct (colrow imax I2 (x - 1) y) as [A B]; [lia|]. destruct (colrow imax I2 x y) as [C D]; [lia|]. rewrite A, B in P1. rewrite C, D in P2. assert (y = j \/ y = j + 1) as [->| ->] by lia; [left|right]; f_equal; lia.
    - destruct (colrow imax I2 (x - 1) y) as [A B]; [lia|]. destruct (colrow imax I2 x y) as [C D]; [lia|]. rewrite C, D in P1. rewrite A, B in P2. assert (y = j \/ y = j + 1) as [->| ->] by lia; [right|left]; f_equal; lia. }
  destruct K as [K|K]; [exists s|exists (flip s)]; (split; [unfold L_Cntr1.valid; rewrite K; cbn; lia|]); (split; [|rewrite K; unfold cell_of; cbn; f_equal; lia]); [apply same_side_refl|apply ends_flip_same].
Qed.
Lemma cut_of s e : same_side e (ends s) -> crossed e -> cut s.
Proof. intros H C. apply (crossed_cut imax above). eapply same_crossed; eauto. Qed.
(** In its cell a crossed side is joined to exactly one other: the one the tracer goes to *)
Lemma site_forms s u v : zone_of s = (u, v) -> s = mkS u v Le \/ s = mkS (u - 1) v Ri \/ s = mkS u (v - 1) Up \/ s = mkS u v Dn.
Proof.
  destruct s as [x y d]. intro Z. assert (X := f_equal fst Z). assert (Y := f_equal snd Z). cbn [fst snd] in X, Y. destruct d; cbn [zone_of sx sy sd fst snd] in X, Y.
  - left. f_equal; lia.
  - right. left. f_equal; lia.
  - right. right. left. f_equal; lia.
  - right. right. right. f_equal; lia.
Qed.
Lemma partner T s t : cut s -> cut t -> zone_of t = zone_of s -> key t <> key s ->
  (ambiguous imax above (cell_of (zone_of s)) -> exists p, (p = fst (ends s) \/ p = snd (ends s)) /\ (p = fst (ends t) \/ p = snd (ends t)) /\ above p = negb (T (zone_of s))) ->
  key t = key (step T s).
Proof.
  destruct (zone_of s) as [u v] eqn:Zs. intros Cs Ct Zt K A. unfold L_Cntr1.step. unfold L_Cntr1.cut, way, ambiguous, corner, cell_of in *. unfold L_Cntr2.high, L_Cntr2.ends, L_Cntr2.flat in *. cbn [fst snd] in *.
  replace (u - 1 + 0) with (u - 1) in A by lia. replace (u - 1 + 1) with u in A by lia. replace (v - 1 + 0) with (v - 1) in A by lia. replace (v - 1 + 1) with v in A by lia.
  assert (NA : forall P Q : Z, u - 1 + (v - 1) * imax <> u + v * imax /\ u + (v - 1) * imax <> u - 1 + v * imax) by (intros; lia).
  destruct (site_forms s u v Zs) as [-> | [-> | [-> | ->]]], (site_forms t u v Zt) as [-> | [-> | [-> | ->]]];
    cbn [fst snd sx sy sd zone_of pt0 pt1 pt2 pt3] in *; zs; repeat match goal with H : context [?x - 1 + 1] |- _ => replace (x - 1 + 1) with x in H by lia end;
    try (exfalso; apply K; unfold key; cbn; reflexivity);
    destruct (above (u - 1 + (v - 1) * imax)) eqn:E00, (above (u + (v - 1) * imax)) eqn:E10, (above (u - 1 + v * imax)) eqn:E01, (above (u + v * imax)) eqn:E11; cbn in Cs, Ct; try discriminate; cbn [eqb negb xorb];
    try (unfold key; cbn; zs; reflexivity);
    (destruct A as [p [P1 [P2 P3]]]; [repeat split; congruence|]);
    destruct (T (u, v)) eqn:ET; cbn in P3 |- *; unfold key; cbn; zs; try reflexivity; exfalso;
    (destruct P1 as [-> | ->], P2 as [P2|P2]; first [lia|congruence]).
Qed.
(** The set of segments of a family of traced curves *)
Lemma w_next T w u : w_full imax jmax above T w -> (let '(_, _, l, _) := w in In u l) -> exists f', same_side (ends (step T u)) f' /\ next_in (w_points w) (ends u) f'.
Proof.
  destruct w as [[[r b] l] e]. intros [[C [H [L [N X]]]] V] Hu. unfold L_Cntr9.w_points. set (t' := if b then r else flip e).
  assert (Ht : same_side (ends e) (ends t')) by (unfold t'; destruct b; [subst e; apply same_side_refl|apply ends_flip_same]).
  apply in_split in Hu as [l1 [l2 ->]]. apply trail_split in H as [v [H1 H2]]. pose proof (trail_head _ _ _ _ _ _ _ _ H2) as Ev. subst v. inversion H2 as [|? ? ? V2 H3]; subst.
  rewrite map_app. cbn [map]. rewrite <- app_assoc. cbn [app]. destruct l2 as [|x l2].
  - inversion H3; subst. exists (ends t'). split; [exact Ht|]. exists (map ends l1), []. reflexivity.
  - pose proof (trail_head _ _ _ _ _ _ _ _ H3) as ->. exists (ends (step T u)). split; [apply same_side_refl|]. exists (map ends l1), (map ends l2 ++ [ends t']). reflexivity.
Qed.
Lemma w_covers T w x : w_full imax jmax above T w -> valid x -> cut x -> In (key x) (w_keys w) ->
  (let '(_, _, l, _) := w in In x l) \/ exists u, (let '(_, _, l, _) := w in In u l) /\ step T u = flip x.
Proof.
  destruct w as [[[r b] l] e]. intros [[C [H [L [N X]]]] V] Vx Cx K. destruct (trail_first _ _ _ _ _ _ _ [] H L) as [l' [El _]].
  destruct (@exists_last _ l L) as [l0 [z El0]]. assert (Hz := H). rewrite El0 in Hz. apply trail_unsnoc in Hz as [_ [Vz Ez]]. assert (Iz : In z l) by (rewrite El0; apply in_or_app; right; left; reflexivity).
  assert (Kl : In (key x) (map key l) \/ b = false /\ key e = key x).
  { unfold w_keys, fkeys in K. destruct b; [left; exact K|]. rewrite map_app in K. apply in_app_or in K as [K|[K|[]]]; auto. }
  destruct Kl as [Kl|[-> Ke]].
  - apply in_map_iff in Kl as [u [Ku Hu]]. destruct (key_eq u x Ku) as [->| ->]; [left; exact Hu|].
    (* u is met in the other direction: look at the one before *)
    right. rewrite flip_flip. apply in_split in Hu as [l1 [l2 E]]. destruct (destruct_last l1) as [->|[l3 [v ->]]].
    + cbn in E. assert (u = r) by (rewrite El in E; congruence). subst u. destruct b.
      * subst e. exists z. split; [exact Iz|]. exact (eq_sym Ez).
      * exfalso. apply (proj1 X). exact Vx.
    + exists v. split; [rewrite E; apply in_or_app; left; apply in_or_app; right; left; reflexivity|]. rewrite E in H. apply trail_split in H as [y [H1 H2]]. pose proof (trail_head _ _ _ _ _ _ _ _ H2) as Ey. subst y. apply trail_unsnoc in H1 as [_ [_ ->]]. reflexivity.
  - destruct X as [X1 X2]. destruct (key_eq e x Ke) as [->| ->]; [contradiction|]. right. exists z. split; [exact Iz|]. rewrite flip_flip. congruence.
Qed.
Lemma segments_exact T W : Forall (w_full imax jmax above T) W -> (forall x, edge_ok x -> cut x -> In (key x) (concat (map w_keys W))) ->
  forall e f, runs_between (map w_points W) e f <-> joined imax jmax above (fun c => T (fst c + 1, snd c + 1)) e f.
Proof.
  intros FW All e f. rewrite Forall_forall in FW. split.
  - assert (Main : forall w e f, In w W -> next_in (w_points w) e f -> joined imax jmax above (fun c => T (fst c + 1, snd c + 1)) e f).
    { clear e f. intros w e f Hw Hn. pose proof (w_curve imax jmax above I2 J2 T w (FW w Hw)) as Hc. destruct (cv_steps _ _ _ _ Hc e f Hn) as [N [q [Q1 Q2]]].
      assert (Ie : In e (w_points w) /\ In f (w_points w)) by (destruct Hn as [l1 [l2 ->]]; split; apply in_or_app; right; [left|right; left]; reflexivity). destruct (cv_sides _ _ _ _ Hc e (proj1 Ie)) as [_ Ce]. destruct (cv_sides _ _ _ _ Hc f (proj2 Ie)) as [_ Cf].
      split; [exact N|]. split; [exact Ce|]. split; [exact Cf|]. exists q. split; [exact Q1|]. split; [exact Q2|]. intro Am.
      exact (w_cuts imax jmax above I2 T (fun c => T (fst c + 1, snd c + 1)) w (fun _ _ => eq_refl) (FW w Hw) e f q Hn Q1 Q2 Am). }
    assert (Inv : forall e e' f f', same_side e e' -> same_side f f' -> joined imax jmax above (fun c => T (fst c + 1, snd c + 1)) e' f' -> joined imax jmax above (fun c => T (fst c + 1, snd c + 1)) e f).
    { clear e f. intros e e' f f' He Hf [N [C1 [C2 [q [Q1 [Q2 Am]]]]]]. apply same_side_sym in He, Hf. split; [|split; [|split]].
      - intro S. apply N. apply (same_side_trans _ e); [exact He|]. apply (same_side_trans _ f); [exact S|]. apply same_side_sym, Hf.
      - exact (same_crossed _ _ He C1). - exact (same_crossed _ _ Hf C2).
      - exists q. split; [exact (same_cell _ _ _ He Q1)|]. split; [exact (same_cell _ _ _ Hf Q2)|]. intro H. destruct (Am H) as [p [P1 [P2 P3]]]. exists p. split; [|split; [|exact P3]]; [destruct He as [->| ->]|destruct Hf as [->| ->]]; cbn; tauto. }
    intros [c [e' [f' [Hc [He [Hf Hn]]]]]]. apply in_map_iff in Hc as [w [<- Hw]]. apply (Inv e e' f f' He Hf). destruct Hn as [Hn|Hn]; [exact (Main w e' f' Hw Hn)|].
    destruct (Main w f' e' Hw Hn) as [N [C1 [C2 [q [Q1 [Q2 Am]]]]]]. split; [intro S; apply N, same_side_sym, S|]. split; [exact C2|]. split; [exact C1|]. exists q. split; [exact Q2|]. split; [exact Q1|]. intro H. destruct (Am H) as [p [P1 [P2 P3]]]. exists p. auto.
  - intros [N [C1 [C2 [q [Q1 [Q2 Am]]]]]]. destruct (cell_site q e Q1) as [s [Vs [Es Zs]]]. destruct (cell_site q f Q2) as [t [Vt [Et Zt]]].
    assert (Cs := cut_of s e Es C1). assert (Ct := cut_of t f Et C2).
    assert (Zz : zone_of t = zone_of s) by (rewrite <- Zt in Zs; unfold cell_of in Zs; destruct (zone_of s), (zone_of t); cbn in Zs; injection Zs; intros; f_equal; lia).
    assert (K : key t = key (step T s)).
    { apply partner; try assumption.
      - intro E. apply N. assert (S : same_sideb (ends t) (ends s) = true) by (apply (same_key imax jmax I2); auto using valid_edge). apply same_spec in S. apply (same_side_trans _ (ends s)); [exact Es|]. apply same_side_sym. apply (same_side_trans _ (ends t)); assumption.
      - rewrite Zs. intro H. destruct (Am H) as [p [P1 [P2 P3]]]. exists p. split; [|split]; [destruct Es as [->| ->]; cbn; tauto|destruct Et as [->| ->]; cbn; tauto|]. rewrite P3. f_equal. rewrite <- Zs. unfold cell_of. cbn. destruct (zone_of s). cbn. f_equal. f_equal; lia. }
    assert (Sf : same_side f (ends (step T s))).
    { apply (same_side_trans _ (ends t)); [exact Et|]. apply same_spec. apply (same_key imax jmax I2); [apply valid_edge, Vt|apply (step_ok imax jmax high T s Vs)|exact K]. }
    pose proof (All s (valid_edge _ _ s Vs) Cs) as Hk. apply in_concat in Hk as [ks [Hks Hk]]. apply in_map_iff in Hks as [w [<- Hw]].
    destruct (w_covers T w s (FW w Hw) Vs Cs Hk) as [Hs|[u [Hu Eu]]].
    + destruct (w_next T w s (FW w Hw) Hs) as [f' [Ff Fn]]. exists (w_points w), (ends s), f'. split; [apply in_map, Hw|]. split; [exact Es|]. split; [apply (same_side_trans _ _ _ Sf Ff)|left; exact Fn].
    + destruct (w_next T w u (FW w Hw) Hu) as [f' [Ff Fn]]. assert (Cu : cut u).
      { destruct w as [[[r b] l] z]. destruct (FW _ Hw) as [[C [H _]] _]. destruct (trail_col _ _ _ _ _ _ _ H C) as [_ [_ Cl]]. apply (Cl u Hu). }
      assert (Es' : step T s = flip u) by (rewrite <- (step_back high T u Cu), Eu, flip_flip; reflexivity).
      exists (w_points w), f', (ends u). split; [apply in_map, Hw|]. split; [|split; [|right; exact Fn]].
      * apply (same_side_trans _ (ends s)); [exact Es|]. apply (same_side_trans _ (ends (flip s))); [apply ends_flip_same|]. rewrite <- Eu. exact Ff.
      * apply (same_side_trans _ _ _ Sf). rewrite Es'. apply same_side_sym, ends_flip_same.
Qed.
End Sides.

Lemma trace_lines imax jmax above centre fuel mem : 1 <= imax -> 1 <= jmax -> 4 * (imax * jmax) + 2 < Z.of_nat fuel ->
  exists T curves, cntr_trace imax jmax above centre fuel mem = Ok curves /\ (forall p, exists d, T p = mean_of imax centre d (flat imax p)) /\
  forall e f, runs_between curves e f <-> joined imax jmax above (fun c => T (fst c + 1, snd c + 1)) e f.
Proof.
  intros I1 J1 Hf. destruct (Z.eq_dec imax 1) as [E1|N1]; [|destruct (Z.eq_dec jmax 1) as [E2|N2]].
  - exists (fun p => mean_of imax centre Le (flat imax p)), []. split; [apply thin_trace; auto; lia|]. split; [intro p; exists Le; reflexivity|]. intros e f. split; [intros [c [? [? [[] _]]]]|]. intros [_ [_ [_ [q [Q _]]]]]. exfalso. apply (thin_side_cell imax jmax q e); auto.
  - exists (fun p => mean_of imax centre Le (flat imax p)), []. split; [apply thin_trace; auto; lia|]. split; [intro p; exists Le; reflexivity|]. intros e f. split; [intros [c [? [? [[] _]]]]|]. intros [_ [_ [_ [q [Q _]]]]]. exfalso. apply (thin_side_cell imax jmax q e); auto.
  - assert (I2 : 2 <= imax) by lia. assert (J2 : 2 <= jmax) by lia. destruct (trace_main imax jmax above centre I2 J2 fuel mem Hf) as [T [W [E [HT [FW [ND All]]]]]]. exists T, (map (w_points imax) W). split; [exact E|]. split; [exact HT|].
    apply segments_exact; assumption.
Qed.

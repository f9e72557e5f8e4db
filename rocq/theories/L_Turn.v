(** The side on which a traced curve has the higher values *)
From Coq Require Import Lia.
From Verif Require Import M_Base M_Cntr S_Cntr S_Turn L_Cntr1 L_Cntr2 L_Cntr4 L_Cntr9 L_Cntr10 L_Cntr11 L_Extract.

Section Turn.
Variables imax jmax : Z.
Variable above : Z -> bool.
Hypothesis I2 : 2 <= imax.
Hypothesis J2 : 2 <= jmax.
Notation high := (high imax above).
Notation valid := (valid imax jmax).
Notation ends := (ends imax).
Notation mid := (middle imax).
Notation at2 := (place_of imax).
Lemma at2_flat p : 0 <= fst p < imax -> at2 (flat imax p) = (2 * fst p, 2 * snd p).
Proof. intro H. destruct p as [x y]. unfold place_of, flat. cbn [fst snd] in *. destruct (colrow imax I2 x y H) as [-> ->]. reflexivity. Qed.
Lemma mid_flat p q : 0 <= fst p < imax -> 0 <= fst q < imax -> mid (flat imax p, flat imax q) = (fst p + fst q, snd p + snd q).
Proof. intros H K. destruct p as [x y], q as [u v]. unfold middle, flat. cbn [fst snd] in *. destruct (colrow imax I2 x y H) as [-> ->], (colrow imax I2 u v K) as [-> ->]. reflexivity. Qed.
(** Going from a side to another one of the cell, the first ends are to the left and the second ones to the right *)
Lemma go_sides w s : valid s ->
  0 < leftness (mid (ends s)) (mid (ends (go w s))) (at2 (flat imax (pt0 s))) /\ leftness (mid (ends s)) (mid (ends (go w s))) (at2 (flat imax (pt1 s))) < 0 /\
  0 < leftness (mid (ends s)) (mid (ends (go w s))) (at2 (flat imax (pt0 (go w s)))) /\ leftness (mid (ends s)) (mid (ends (go w s))) (at2 (flat imax (pt1 (go w s)))) < 0.
Proof.
  intro V. unfold L_Cntr2.ends.
  assert (B : 0 <= fst (pt0 s) < imax /\ 0 <= fst (pt1 s) < imax /\ 0 <= fst (pt0 (go w s)) < imax /\ 0 <= fst (pt1 (go w s)) < imax)
    by (destruct s as [x y []], w as [[]|]; unfold L_Cntr1.valid in V; cbn in *; lia).
  destruct B as (B1 & B2 & B3 & B4). rewrite !mid_flat, !at2_flat by assumption. destruct s as [x y []], w as [[]|]; unfold leftness; cbn [fst snd pt0 pt1 go go_left go_right go_on sx sy sd]; zs; (split; [|split; [|split]]); try nia.
Qed.
Lemma mid_swap e : mid (snd e, fst e) = mid e. Proof. unfold middle. cbn. f_equal; apply Z.add_comm. Qed.
Lemma mid_flip s : mid (ends (flip s)) = mid (ends s). Proof. rewrite (ends_flip imax). apply mid_swap. Qed.
Lemma w_side T r b l e : w_full imax jmax above T (r, b, l, e) -> if col high r then higher_left imax above (w_points imax (r, b, l, e)) else higher_right imax above (w_points imax (r, b, l, e)).
Proof.
  intros [[C [H [L [N X]]]] V].
  assert (G : forall p q k, next_in (w_points imax (r, b, l, e)) p q -> end_of p q k ->
    (above k = col high r /\ 0 < leftness (mid p) (mid q) (at2 k)) \/ (above k = negb (col high r) /\ leftness (mid p) (mid q) (at2 k) < 0)).
  { intros p q k Hn Hk. unfold w_points in Hn. destruct (trail_next imax jmax above T r l e (if b then r else flip e) H) with (p := p) (q := q) as [u [Hu [Ep Eq]]]; [destruct b; [left; symmetry; exact X|right; reflexivity]|exact Hn|].
    destruct (trail_col _ _ _ _ _ _ _ H C) as [_ [_ Cl]]. destruct (Cl u Hu) as [Cu Bu]. pose proof (trail_valid _ _ _ _ _ _ _ H u Hu) as Vu. destruct (step_col high T u Cu) as [Cs Bs].
    destruct (go_sides (way high T u) u Vu) as (G1 & G2 & G3 & G4). change (go (way high T u) u) with (step high T u) in *.
    assert (Mq : mid q = mid (ends (step high T u))) by (destruct Eq as [->| ->]; [reflexivity|apply mid_flip]). rewrite Mq, Ep.
    assert (Hk' : k = flat imax (pt0 u) \/ k = flat imax (pt1 u) \/ k = flat imax (pt0 (step high T u)) \/ k = flat imax (pt1 (step high T u))).
    { unfold end_of in Hk. rewrite Ep in Hk. cbn [fst snd L_Cntr2.ends] in Hk. destruct Eq as [-> | ->]; [|rewrite (ends_flip imax) in Hk]; cbn [fst snd L_Cntr2.ends] in Hk; tauto. }
    unfold L_Cntr1.cut, L_Cntr1.col, L_Cntr2.high in *. destruct Hk' as [-> | [-> | [-> | ->]]]; [left|right|left|right]; split; try assumption; try congruence.
    - rewrite <- Bu, Cu, negb_involutive. reflexivity.
    - rewrite <- Bu, <- Bs, Cs, negb_involutive. reflexivity. }
  destruct (col high r); intros p q k Hn Hk; destruct (G p q k Hn Hk) as [[A B]|[A B]]; cbn [negb] in A; rewrite A; split; intro D; congruence.
Qed.
End Turn.

Lemma trace_sides imax jmax above centre fuel mem curves : 1 <= imax -> 1 <= jmax -> 4 * (imax * jmax) + 2 < Z.of_nat fuel -> cntr_trace imax jmax above centre fuel mem = Ok curves ->
  forall c, In c curves -> (closed_curve c -> higher_left imax above c) /\ (higher_left imax above c \/ higher_right imax above c).
Proof.
  intros I1 J1 Hf Ht c Hc. destruct (Z.eq_dec imax 1) as [E|E]; [|destruct (Z.eq_dec jmax 1) as [E'|E']].
  - rewrite (thin_trace imax jmax above centre I1 J1 (or_introl E) fuel mem) in Ht by lia. injection Ht as <-. destruct Hc.
  - rewrite (thin_trace imax jmax above centre I1 J1 (or_intror E') fuel mem) in Ht by lia. injection Ht as <-. destruct Hc.
  - assert (I2 : 2 <= imax) by lia. assert (J2 : 2 <= jmax) by lia. destruct (trace_main_left imax jmax above centre I2 J2 fuel mem Hf) as [T [W [Et [_ [FW [LW _]]]]]]. rewrite Et in Ht. injection Ht as <-.
    apply in_map_iff in Hc as [[[[r b] l] e] [<- Hw]]. rewrite Forall_forall in FW, LW. pose proof (FW _ Hw) as Fw. pose proof (LW _ Hw) as Lw. cbn in Lw.
    pose proof (w_side imax jmax above I2 T r b l e Fw) as S. split; [|destruct (col (high imax above) r); auto]. intro Cc. destruct b; [rewrite (Lw eq_refl) in S; exact S|].
    (* an open curve does not end where it begins *)
    exfalso. destruct Fw as [Fu V]. pose proof (full_nodup imax jmax (high imax above) T _ _ _ _ Fu) as ND. destruct Fu as [C [H [L [N [X1 X2]]]]].
    destruct (trail_first _ _ _ _ _ _ _ [] H L) as [l' [El _]]. destruct Cc as [k [[k1 B1] [k2 B2]]]. unfold w_points in B1, B2. apply app_inj_tail in B2 as [_ B2]. rewrite El in B1. cbn in B1. injection B1 as B1 _.
    assert (K : key r = key e).
    { rewrite <- (key_flip e). apply (same_key imax jmax I2); [apply valid_edge, V|apply edge_flip, (trail_end _ _ _ _ _ _ _ H L)|]. rewrite B1, B2. apply same_spec. left. reflexivity. }
    unfold fkeys in ND. rewrite El, map_app in ND. cbn in ND. inversion ND as [|? ? N1 N2]; subst. apply N1. rewrite K. apply in_or_app. right. left. reflexivity.
Qed.

(** The decision recorded for a saddle zone comes from the mean of its four corners *)
From Coq Require Import Lia.
From Verif Require Import M_Base M_Cntr L_Cntr1 L_Cntr2.

Section Saddle.
Variables imax jmax : Z.
Variable centre : Z -> Z -> Z -> Z -> bool.
Hypothesis I2 : 2 <= imax.
Notation nreg := (nreg imax jmax).
Notation ijmax := (ijmax imax jmax).
Notation lfo := (lfo imax).
Notation fw := (fw imax).
(** The mean over the corners of zone k, in the order for a curve that enters in direction d *)
Definition mean_of (d : dir) (k : Z) : bool :=
  match d with
  | Le => centre (k - imax) (k - imax - 1) k (k - 1)
  | Ri => centre (k - 1) k (k - imax - 1) (k - imax)
  | Up => centre (k - imax - 1) (k - 1) (k - imax) k
  | Dn => centre k (k - imax) (k - 1) (k - imax - 1)
  end.
Definition sadok (f : Z -> option bool) : Prop := forall k b, f k = Some b -> exists d, b = mean_of d k.

Lemma bind_inv {A B} (e : res A) (f : A -> res B) y : bind e f = Ok y -> exists x, e = Ok x /\ f x = Ok y.
Proof. destruct e as [x|x]; cbn; intro H; [eauto|discriminate]. Qed.

Lemma turn_sad edge dd t t' w : turn imax jmax centre edge (lfo dd) (point0 edge (fw dd)) (point1 edge (fw dd)) t = Ok (t', w) -> sadok (t_saddle t) -> sadok (t_saddle t').
Proof.
  unfold turn. intros H S. apply bind_inv in H as [c0 [_ H]]. apply bind_inv in H as [c2 [_ H]]. apply bind_inv in H as [c3 [_ H]].
  destruct (eqb (c_z c0) (c_z c2)); [|destruct (eqb (negb (c_z c0)) (c_z c3)); injection H as <- _; exact S].
  destruct (eqb (negb (c_z c0)) (c_z c3)); [|injection H as <- _; exact S].
  apply bind_inv in H as [o [_ H]]. apply bind_inv in H as [r [Hr H]]. injection H as <- _. destruct o as [g|]; [injection Hr as <-; exact S|].
  destruct (inside _ _ && _ && _ && _)%bool; [|discriminate]. apply bind_inv in Hr as [sd [Hs Hr]]. injection Hr as <-. cbn [fst t_saddle]. unfold put in Hs. destruct (inside _ _); [|discriminate]. injection Hs as <-.
  intros k b Hk. cbv beta in Hk. destruct (Z.eqb_spec k (edge + (if 0 <? lfo dd then lfo dd else 0))) as [E|_]; [|exact (S k b Hk)]. injection Hk as <-. exists dd. rewrite E. rewrite (lfo_pos imax I2). unfold point0, point1. rewrite (fw_pos imax I2).
  assert (N : (fw dd <? 0) = match dd with Ri | Dn => true | _ => false end) by (destruct dd; cbn [L_Cntr2.fw]; first [apply Z.ltb_lt|apply Z.ltb_ge]; lia). rewrite N. destruct dd; cbn [L_Cntr2.fw L_Cntr2.lfo mean_of]; f_equal; lia.
Qed.
Lemma erase_sad edge lf t t' : erase imax jmax edge lf t = Ok t' -> t_saddle t' = t_saddle t.
Proof. unfold erase. intro H. apply bind_inv in H as [c [_ H]]. destruct (marked lf c); [|injection H as <-; reflexivity]. apply bind_inv in H as [d [_ H]]. injection H as <-. reflexivity. Qed.
Lemma check_sad p2 cl edge lf fwd t t' dn st : check_edge imax jmax p2 cl edge lf fwd t = Ok (t', dn, st) -> t_saddle t' = t_saddle t.
Proof.
  unfold check_edge. intro H. apply bind_inv in H as [c [_ H]]. destruct (negb p2 && c_open c)%bool; [injection H as <- _ _; reflexivity|]. destruct ((edge =? t_edge0 t) && (lf =? t_left0 t))%bool; [injection H as <- _ _; reflexivity|]. destruct p2; [injection H as <- _ _; reflexivity|].
  apply bind_inv in H as [t1 [H1 H]]. apply bind_inv in H as [t2 [H2 H]]. injection H as <- _ _. rewrite (erase_sad _ _ _ _ H2). exact (erase_sad _ _ _ _ H1).
Qed.
Lemma next_dir w edge dd p0 p1 jedge e lf fwd j : next_edge w edge (lfo dd) (fw dd) p0 p1 jedge = (e, lf, fwd, j) -> exists d', lf = lfo d' /\ fwd = fw d'.
Proof.
  unfold next_edge. destruct w as [[]|]; intro H; injection H as _ <- <- _.
  - exists (match dd with Le => Up | Ri => Dn | Up => Ri | Dn => Le end). destruct dd; cbn; lia.
  - exists (match dd with Le => Dn | Ri => Up | Up => Le | Dn => Ri end). destruct dd; cbn; lia.
  - exists dd. auto.
Qed.
Lemma cross_sad p2 cl room fuel : forall edge dd jedge n dn pts t t' n' dn' pts', cross imax jmax centre fuel p2 cl room edge (lfo dd) (fw dd) jedge n dn pts t = Ok (t', n', dn', pts') -> sadok (t_saddle t) -> sadok (t_saddle t').
Proof.
  induction fuel as [|f IH]; intros edge dd jedge n dn pts t t' n' dn' pts' H S; [discriminate|]. cbn [cross] in H. apply bind_inv in H as [q [_ H]]. apply bind_inv in H as [[[t1 dn1] st] [H1 H]].
  assert (S1 : sadok (t_saddle t1)). { destruct ((dn =? 0) && negb jedge && negb (n =? 0))%bool; [rewrite (check_sad _ _ _ _ _ _ _ _ _ H1); exact S|injection H1 as <- _ _; exact S]. }
  destruct st; [injection H as <- _ _ _; exact S1|]. destruct (negb (dn1 =? 0)); [injection H as <- _ _ _; exact S1|]. apply bind_inv in H as [[t2 w] [H2 H]]. pose proof (turn_sad _ _ _ _ _ H2 S1) as S2.
  destruct (next_edge w edge (lfo dd) (fw dd) (point0 edge (fw dd)) (point1 edge (fw dd)) jedge) as [[[e1 lf1] fw1] j1] eqn:En. destruct (next_dir _ _ _ _ _ _ _ _ _ _ En) as [d' [-> ->]].
  apply bind_inv in H as [c [_ H]]. destruct (if j1 then c_jb c else c_ib c); [|exact (IH _ _ _ _ _ _ _ _ _ _ _ H S2)].
  apply bind_inv in H as [t3 [H3 H]]. assert (S3 : sadok (t_saddle t3)). { destruct (negb p2 && _)%bool; [rewrite (erase_sad _ _ _ _ H3); exact S2|injection H3 as <-; exact S2]. }
  rewrite <- (lfo_opp imax), <- (fw_opp imax) in H. exact (IH _ _ _ _ _ _ _ _ _ _ _ H S3).
Qed.
Lemma zone_sad p2 cl room fuel t t' n dn pts dd : t_left0 t = lfo dd -> zone_crosser imax jmax centre fuel p2 cl room t = Ok (t', n, dn, pts) -> sadok (t_saddle t) -> sadok (t_saddle t').
Proof. unfold zone_crosser. intros -> H S. rewrite (forward_lf imax I2) in H. exact (cross_sad _ _ _ _ _ _ _ _ _ _ _ _ _ _ _ H S). Qed.
Lemma curve_sad p2 room fuel t t' n pts : curve_tracer imax jmax centre fuel p2 room t = Ok (t', n, pts) -> sadok (t_saddle t) -> sadok (t_saddle t').
Proof.
  unfold curve_tracer. intros H S. apply bind_inv in H as [c [_ H]]. apply bind_inv in H as [[t1 o] [H1 H]].
  assert (S1 : sadok (t_saddle t1)).
  { clear H. unfold next_place in H1. destruct (p2 || _)%bool.
    - destruct (two_starts imax (t_left0 t) c); [injection H1 as <- _; exact S|]. apply bind_inv in H1 as [c1 [_ H1]]. destruct (c_done c1); [injection H1 as <- _; exact S|]. apply bind_inv in H1 as [e [_ H1]]. apply bind_inv in H1 as [d [_ H1]]. injection H1 as <- _. exact S.
    - destruct (t_count t <=? 0); [|injection H1 as <- _; exact S]. apply bind_inv in H1 as [d [_ H1]]. injection H1 as <- _. exact S. }
  destruct o as [place|]; [|injection H as <- _ _; exact S1]. apply bind_inv in H as [[[e0 l0] v0] [H2 H]].
  assert (L0 : exists dd, l0 = lfo dd).
  { clear H. unfold next_start in H2. destruct (two_starts imax (t_left0 t) c).
    - apply bind_inv in H2 as [c1 [_ H2]]. destruct (_ && _)%bool; [injection H2 as _ <- _; exists Le; reflexivity|]. destruct (_ && _)%bool; injection H2 as _ <- _; [exists Up|exists Dn]; reflexivity.
    - apply bind_inv in H2 as [e [_ H2]]. apply bind_inv in H2 as [c1 [_ H2]]. injection H2 as _ <- _. destruct (c_i1 c1); [exists Ri; reflexivity|]. destruct (c_i0 c1); [exists Le; reflexivity|]. destruct (c_j1 c1); [exists Up|exists Dn]; reflexivity. }
  destruct L0 as [dd ->]. apply bind_inv in H as [[[[t2 n2] dn2] pts2] [H3 H]]. assert (S2 : sadok (t_saddle t2)) by (refine (zone_sad _ _ _ _ _ _ _ _ _ dd _ H3 S1); reflexivity).
  destruct p2; [injection H as <- _ _; exact S2|]. destruct (_ && _)%bool.
  - apply bind_inv in H as [d [_ H]]. apply bind_inv in H as [d' [_ H]]. injection H as <- _ _. exact S2.
  - apply bind_inv in H as [d [_ H]]. injection H as <- _ _. exact S2.
Qed.
Lemma first_sad inner fuel : forall np nt t t' a b, first_pass imax jmax centre fuel inner np nt t = Ok (t', a, b) -> sadok (t_saddle t) -> sadok (t_saddle t').
Proof.
  induction fuel as [|f IH]; intros np nt t t' a b H S; [discriminate|]. cbn [first_pass] in H. apply bind_inv in H as [[[t1 n] pts] [H1 H]]. pose proof (curve_sad _ _ _ _ _ _ _ H1 S) as S1.
  destruct (n =? 0); [injection H as <- _ _; exact S1|]. destruct (0 <? n); exact (IH _ _ _ _ _ _ H S1).
Qed.
End Saddle.

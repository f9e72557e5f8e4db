(** Closed curves on a mesh: which points they enclose. *)
From Coq Require Import ZArith List Bool Lia ZifyBool.
From Verif Require Import S_Cntr S_Turn P_Lines.
Import ListNotations.
Local Open Scope Z_scope.

(** *** Sums along a list *)
Definition sum {A} (f : A -> Z) (l : list A) : Z := fold_right (fun a n => f a + n) 0 l.
Lemma sum_app {A} (f : A -> Z) l m : sum f (l ++ m) = sum f l + sum f m.
Proof. induction l as [|a l IH]; [reflexivity|]. cbn [sum fold_right app]. fold (sum f (l ++ m)). fold (sum f l). rewrite IH. lia. Qed.
Lemma sum_ext {A} (f g : A -> Z) l : (forall a, In a l -> f a = g a) -> sum f l = sum g l.
Proof. induction l as [|a l IH]; intro H; [reflexivity|]. cbn. rewrite (H a (or_introl eq_refl)). f_equal. apply IH. intros b Hb. apply H. right. exact Hb. Qed.
Lemma sum_plus {A} (f g : A -> Z) l : sum (fun a => f a + g a) l = sum f l + sum g l.
Proof. induction l as [|a l IH]; [reflexivity|]. cbn. unfold sum in IH. rewrite IH. lia. Qed.
Lemma sum_times {A} (f : A -> Z) k l : sum (fun a => k * f a) l = k * sum f l.
Proof. induction l as [|a l IH]; [cbn; lia|]. cbn. unfold sum in IH. rewrite IH. lia. Qed.
Lemma sum_zero {A} (f : A -> Z) l : (forall a, In a l -> f a = 0) -> sum f l = 0.
Proof. induction l as [|a l IH]; intro H; [reflexivity|]. cbn. rewrite (H a (or_introl eq_refl)). apply IH. intros b Hb. apply H. right. exact Hb. Qed.
Lemma sum_nonneg {A} (f : A -> Z) l : (forall a, In a l -> 0 <= f a) -> 0 <= sum f l.
Proof. induction l as [|a l IH]; intro H; [cbn; lia|]. cbn. pose proof (H a (or_introl eq_refl)). enough (0 <= sum f l) by (unfold sum in *; lia). apply IH. intros b Hb. apply H. right. exact Hb. Qed.
Lemma sum_in {A} (f : A -> Z) l a : (forall a, In a l -> 0 <= f a) -> In a l -> f a <= sum f l.
Proof.
  intros N H. apply in_split in H as (l1 & l2 & ->). rewrite sum_app. cbn. fold (sum f l2). assert (0 <= sum f l1) by (apply sum_nonneg; intros; apply N, in_or_app; auto). assert (0 <= sum f l2) by (apply sum_nonneg; intros; apply N, in_or_app; right; right; auto). lia.
Qed.
(** The pairs of successive elements *)
Definition steps {A} (c : list A) : list (A * A) := combine c (tl c).
Lemma steps_cons {A} (a b : A) l : steps (a :: b :: l) = (a, b) :: steps (b :: l). Proof. reflexivity. Qed.
Lemma steps_app {A} (a : A) l m : steps (l ++ a :: m) = steps (l ++ [a]) ++ steps (a :: m).
Proof. induction l as [|b l IH]; [reflexivity|]. destruct l as [|d l]; [reflexivity|]. cbn [app] in *. rewrite !steps_cons, IH. reflexivity. Qed.
Lemma in_steps {A} (c : list A) e f : In (e, f) (steps c) <-> exists l1 l2, c = l1 ++ e :: f :: l2.
Proof.
  split.
  - induction c as [|a c IH]; [intros []|]. destruct c as [|b c]; [intros []|]. rewrite steps_cons. intros [H|H]; [injection H as <- <-; exists [], c; reflexivity|].
    destruct (IH H) as (l1 & l2 & E). exists (a :: l1), l2. cbn. rewrite <- E. reflexivity.
  - intros (l1 & l2 & ->). rewrite steps_app. apply in_or_app. right. left. reflexivity.
Qed.
Lemma steps_map {A B} (g : A -> B) c : steps (map g c) = map (fun p => (g (fst p), g (snd p))) (steps c).
Proof. induction c as [|a c IH]; [reflexivity|]. destruct c as [|b c]; [reflexivity|]. cbn [map] in *. rewrite !steps_cons. cbn [map fst snd]. f_equal. exact IH. Qed.
(** Along a closed list: a sum over the steps is a sum over the elements *)
Lemma path_sum {A} (F G : A * A -> Z) (h : A -> Z) d m : forall e, (forall a b b', In (a, b) (steps (e :: m ++ [d])) -> In (b, b') (steps (e :: m ++ [d])) -> G (a, b) + F (b, b') = h b) ->
  exists a b, In (e, a) (steps (e :: m ++ [d])) /\ In (b, d) (steps (e :: m ++ [d])) /\ sum (fun p => F p + G p) (steps (e :: m ++ [d])) = F (e, a) + sum h m + G (b, d).
Proof.
  induction m as [|n m IH]; intros e H.
  - exists d, e. cbn. split; [auto|]. split; [auto|]. lia.
  - cbn [app] in *. rewrite steps_cons in *. destruct (IH n) as (a & b & Ha & Hb & E); [intros x y y' X Y; apply H; right; assumption|].
    exists n, b. split; [left; reflexivity|]. split; [right; exact Hb|]. cbn [sum fold_right]. fold (sum (fun p => F p + G p) (steps (n :: m ++ [d]))). fold (sum h m). rewrite E.
    pose proof (H e n a (or_introl eq_refl) (or_intror Ha)). lia.
Qed.
Lemma loop_sum {A} (F G : A * A -> Z) (h : A -> Z) e m : (forall a b b', In (a, b) (steps (e :: m ++ [e])) -> In (b, b') (steps (e :: m ++ [e])) -> G (a, b) + F (b, b') = h b) ->
  sum (fun p => F p + G p) (steps (e :: m ++ [e])) = sum h (e :: m).
Proof.
  intro H. destruct (path_sum F G h e m e H) as (a & b & Ha & Hb & ->). pose proof (H b e a Hb Ha). cbn. fold (sum h m). lia.
Qed.

(** *** Curves *)
Section Loop.
Variables cols rows : Z.
Variable above : Z -> bool.
Hypothesis C1 : 1 <= cols.
Notation mid := (middle cols).
Definition flatly (m : Z * Z) : Prop := exists k r, 0 <= k < cols - 1 /\ 0 <= r < rows /\ m = (2 * k + 1, 2 * r).
Definition upright (m : Z * Z) : Prop := exists k r, 0 <= k < cols /\ 0 <= r < rows - 1 /\ m = (2 * k, 2 * r + 1).
Lemma side_mid e : side cols rows e ->
  (exists k r, 0 <= k < cols - 1 /\ 0 <= r < rows /\ mid e = (2 * k + 1, 2 * r) /\ same_side e (k + r * cols, k + 1 + r * cols)) \/
  (exists k r, 0 <= k < cols /\ 0 <= r < rows - 1 /\ mid e = (2 * k, 2 * r + 1) /\ same_side e (k + r * cols, k + (r + 1) * cols)).
Proof.
  destruct e as [p q]. intros (Ip & Iq & A). destruct (coords cols rows p C1 Ip) as (P1 & P2 & P3). destruct (coords cols rows q C1 Iq) as (Q1 & Q2 & Q3).
  unfold middle, same_side. cbn [fst snd]. set (a := col_of cols p) in *. set (b := row_of cols p) in *. set (a' := col_of cols q) in *. set (b' := row_of cols q) in *. clearbody a b a' b'. subst p q.
  destruct A as [[-> A]|[-> A]].
  - left. destruct (Z_lt_ge_dec a a') as [L|L].
    + assert (a' = a + 1) by lia. subst a'. exists a, b'. split; [lia|]. split; [lia|]. split; [f_equal; lia|]. left. reflexivity.
    + assert (a = a' + 1) by lia. subst a. exists a', b'. split; [lia|]. split; [lia|]. split; [f_equal; lia|]. right. reflexivity.
  - right. destruct (Z_lt_ge_dec b b') as [L|L].
    + assert (b' = b + 1) by lia. subst b'. exists a', b. split; [lia|]. split; [lia|]. split; [f_equal; lia|]. left. reflexivity.
    + assert (b = b' + 1) by lia. subst b. exists a', b'. split; [lia|]. split; [lia|]. split; [f_equal; lia|]. right. reflexivity.
Qed.
Lemma mid_same e f : side cols rows e -> side cols rows f -> mid e = mid f -> same_side e f.
Proof.
  intros Se Sf E. destruct (side_mid e Se) as [(k & r & _ & _ & Ee & S1)|(k & r & _ & _ & Ee & S1)], (side_mid f Sf) as [(k' & r' & _ & _ & Ef & S2)|(k' & r' & _ & _ & Ef & S2)];
    rewrite Ee, Ef in E; pose proof (f_equal fst E) as E1; pose proof (f_equal snd E) as E2; cbn [fst snd] in E1, E2; clear E; try lia; (assert (k' = k) by lia); (assert (r' = r) by lia); subst k' r'; unfold same_side in *;
    destruct e as [a b], f as [a' b']; cbn [fst snd] in *; destruct S1 as [S1|S1]; injection S1 as <- <-; destruct S2 as [S2|S2]; injection S2 as <- <-; auto.
Qed.
Lemma same_mid e f : same_side e f -> mid f = mid e.
Proof. intros [->| ->]; [reflexivity|]. unfold middle. cbn. f_equal; lia. Qed.

Variable c : list (Z * Z).
Hypothesis Ic : is_curve cols rows above c.
Hypothesis Hl : higher_left cols above c.
Notation step := (fun e f => In (e, f) (steps c)).
Lemma step_next e f : In (e, f) (steps c) <-> next_in c e f. Proof. apply in_steps. Qed.
Lemma step_in e f : In (e, f) (steps c) -> In e c /\ In f c.
Proof. intro H. apply in_steps in H as (l1 & l2 & ->). split; apply in_or_app; right; [left|right; left]; reflexivity. Qed.
(** One step: two different sides of a cell *)
Lemma step_cell e f : In (e, f) (steps c) -> mid e <> mid f /\ exists k r, 0 <= k < cols - 1 /\ 0 <= r < rows - 1 /\ 2 * k <= fst (mid e) <= 2 * k + 2 /\ 2 * k <= fst (mid f) <= 2 * k + 2 /\
  2 * r <= snd (mid e) <= 2 * r + 2 /\ 2 * r <= snd (mid f) <= 2 * r + 2.
Proof.
  intro H. destruct (step_in e f H) as [Ie If]. destruct (cv_sides _ _ _ _ Ic e Ie) as [Se _]. destruct (cv_sides _ _ _ _ Ic f If) as [Sf _].
  destruct (cv_steps _ _ _ _ Ic e f (proj1 (step_next e f) H)) as [N ([k r] & Q1 & Q2)]. split; [intro E; apply N, mid_same; assumption|].
  exists k, r. destruct Q1 as ([A B] & _ & [P1 P2] & [P3 P4]). destruct Q2 as (_ & _ & [P5 P6] & [P7 P8]). cbn [fst snd] in *. unfold middle. cbn [fst snd]. lia.
Qed.
(** Two steps: the curve goes through the side between them *)
Lemma pass d e f : In (d, e) (steps c) -> In (e, f) (steps c) ->
  (exists k r, 0 <= k < cols - 1 /\ 0 <= r < rows /\ mid e = (2 * k + 1, 2 * r) /\ ((snd (mid d) < 2 * r /\ 2 * r < snd (mid f)) \/ (snd (mid f) < 2 * r /\ 2 * r < snd (mid d)))) \/
  (exists k r, 0 <= k < cols /\ 0 <= r < rows - 1 /\ mid e = (2 * k, 2 * r + 1) /\ ((fst (mid d) < 2 * k /\ 2 * k < fst (mid f)) \/ (fst (mid f) < 2 * k /\ 2 * k < fst (mid d)))).
Proof.
  intros H1 H2. destruct (step_in _ _ H1) as [Id Ie]. destruct (cv_sides _ _ _ _ Ic e Ie) as [Se Ce].
  assert (Pa : exists p, (p = fst e \/ p = snd e) /\ above p = true).
  { unfold crossed in Ce. destruct (above (fst e)) eqn:A; [exists (fst e); auto|]. destruct (above (snd e)) eqn:B; [exists (snd e); auto|congruence]. }
  destruct Pa as (p & Hp & Ap). destruct (Hl d e p (proj1 (step_next _ _) H1)) as [L1 _]; [unfold end_of; tauto|]. destruct (Hl e f p (proj1 (step_next _ _) H2)) as [L2 _]; [unfold end_of; tauto|].
  specialize (L1 Ap). specialize (L2 Ap). unfold leftness in L1, L2.
  destruct (side_mid e Se) as [(k & r & Hk & Hr & Em & S1)|(k & r & Hk & Hr & Em & S1)]; [left|right]; exists k, r; (split; [exact Hk|]); (split; [exact Hr|]); (split; [exact Em|]); rewrite Em in L1, L2; cbn [fst snd] in L1, L2.
  - destruct (at_coords cols rows k r ltac:(lia) Hr) as (_ & X1 & Y1). destruct (at_coords cols rows (k + 1) r ltac:(lia) Hr) as (_ & X2 & Y2).
    assert (Hp' : p = k + r * cols \/ p = k + 1 + r * cols) by (destruct e as [a b], S1 as [S1|S1]; injection S1 as <- <-; cbn [fst snd] in Hp; tauto).
    unfold place_of in L1, L2. destruct Hp' as [-> | ->]; rewrite ?X1, ?Y1, ?X2, ?Y2 in L1, L2; cbn [fst snd] in L1, L2; nia.
  - destruct (at_coords cols rows k r ltac:(lia) ltac:(lia)) as (_ & X1 & Y1). destruct (at_coords cols rows k (r + 1) ltac:(lia) ltac:(lia)) as (_ & X2 & Y2).
    assert (Hp' : p = k + r * cols \/ p = k + (r + 1) * cols) by (destruct e as [a b], S1 as [S1|S1]; injection S1 as <- <-; cbn [fst snd] in Hp; tauto).
    unfold place_of in L1, L2. destruct Hp' as [-> | ->]; rewrite ?X1, ?Y1, ?X2, ?Y2 in L1, L2; cbn [fst snd] in L1, L2; nia.
Qed.
(** Closed curves *)
Hypothesis Cc : closed_curve c.
Lemma closed_form : exists e m, c = e :: m ++ [e].
Proof.
  pose proof (cv_length _ _ _ _ Ic) as L. destruct Cc as (e & (l1 & E1) & (l2 & E2)). exists e. destruct l2 as [|a l2]; [rewrite E2 in L; cbn in L; lia|].
  assert (a = e) by (rewrite E1 in E2; cbn in E2; congruence). subst a. exists l2. exact E2.
Qed.
Definition once : list (Z * Z) := removelast c.
Lemma once_in e : In e once <-> In e c.
Proof.
  unfold once. destruct closed_form as (g & m & E). rewrite E. change (g :: m ++ [g]) with ((g :: m) ++ [g]). rewrite removelast_last. split; intro H; [apply in_or_app; auto|].
  apply in_app_or in H as [H|[<-|[]]]; [exact H|left; reflexivity].
Qed.
Lemma neighbours e : In e c -> exists d f, In (d, e) (steps c) /\ In (e, f) (steps c).
Proof.
  intro H. assert (P : exists d, In (d, e) (steps c)).
  { destruct closed_form as (g & m & E). rewrite E in H |- *. assert (K : In e (m ++ [g])) by (destruct H as [<-|H]; [apply in_or_app; right; left; reflexivity|exact H]).
    apply in_split in K as (l1 & l2 & K). rewrite K. destruct l1 as [|a l1] using rev_ind; [exists g; left; reflexivity|]. exists a. apply in_steps. exists (g :: l1), l2. cbn. rewrite <- app_assoc. reflexivity. }
  assert (Q : exists f, In (e, f) (steps c)).
  { destruct closed_form as (g & m & E). apply once_in in H. unfold once in H. rewrite E in H |- *. change (g :: m ++ [g]) with ((g :: m) ++ [g]) in H |- *. rewrite removelast_last in H.
    apply in_split in H as (l1 & l2 & H). rewrite H. rewrite <- app_assoc. cbn [app]. destruct l2 as [|b l2]; [exists g|exists b]; apply in_steps; [exists l1, []|exists l1, (l2 ++ [g])]; reflexivity. }
  destruct P as [d P], Q as [f Q]. exists d, f. auto.
Qed.
Lemma around (F G : (Z * Z) * (Z * Z) -> Z) (h : Z * Z -> Z) : (forall d e f, In (d, e) (steps c) -> In (e, f) (steps c) -> G (d, e) + F (e, f) = h e) ->
  sum (fun p => F p + G p) (steps c) = sum h once.
Proof.
  intro H. unfold once. destruct closed_form as (g & m & E). rewrite E in H |- *. rewrite (loop_sum F G h g m H). change (g :: m ++ [g]) with ((g :: m) ++ [g]). rewrite removelast_last. reflexivity.
Qed.
Lemma all_alike {B} (g : Z * Z -> B) : (forall e f, In (e, f) (steps c) -> g e = g f) -> forall e f, In e c -> In f c -> g e = g f.
Proof.
  clear. induction c as [|a l IH]; [intros _ ? ? []|]. intros H. assert (K : forall e, In e (a :: l) -> g a = g e).
  { intros e [<-|He]; [reflexivity|]. destruct l as [|b l']; [destruct He|]. rewrite (H a b (or_introl eq_refl)). apply IH; [intros; apply H; right; assumption|left; reflexivity|exact He]. }
  intros e f He Hf. rewrite <- (K e He). apply K. exact Hf.
Qed.

(** How often the curve goes through a place; how often it goes through the row of a point on one side of it ([sx] = 1: at higher columns, -1: at lower columns) *)
Variable sx : Z.
Hypothesis SX : sx = 1 \/ sx = -1.
Definition is_at (m : Z * Z) (e : Z * Z) : bool := (fst (mid e) =? fst m) && (snd (mid e) =? snd m).
Definition beyond (i r : Z) (e : Z * Z) : bool := (snd (mid e) =? 2 * r) && (sx * (2 * i) <? sx * fst (mid e)).
Definition passes (m : Z * Z) : Z := sum (fun e => Z.b2z (is_at m e)) once.
Definition number (i r : Z) : Z := sum (fun e => Z.b2z (beyond i r e)) once.
Definition within (i r : Z) : bool := Z.odd (number i r).
Lemma forms e : In e c -> flatly (mid e) \/ upright (mid e).
Proof. intro H. destruct (side_mid e (proj1 (cv_sides _ _ _ _ Ic e H))) as [(k & r & A & B & E & _)|(k & r & A & B & E & _)]; [left|right]; exists k, r; auto. Qed.
Lemma next_column i r : number i r + number (i + 1) r + passes (2 * i + 1, 2 * r) = 2 * (if sx =? 1 then number i r else number (i + 1) r).
Proof.
  enough (if sx =? 1 then number i r = number (i + 1) r + passes (2 * i + 1, 2 * r) else number (i + 1) r = number i r + passes (2 * i + 1, 2 * r)) by (destruct (sx =? 1); lia).
  unfold number, passes. destruct SX as [-> | ->]; cbn [Z.eqb Pos.eqb]; rewrite <- sum_plus; apply sum_ext; intros e He; apply once_in in He;
    unfold beyond, is_at; destruct (forms e He) as [(k & q & _ & _ & ->)|(k & q & _ & _ & ->)]; cbn [fst snd]; lia.
Qed.
Definition in_strip (i r : Z) (m : Z * Z) : bool := (2 * r <=? snd m) && (snd m <=? 2 * r + 2) && (sx * (2 * i) <=? sx * fst m).
Lemma next_row i r : exists h, number i r + number i (r + 1) + passes (2 * i, 2 * r + 1) = 2 * h.
Proof.
  set (s := fun p : (Z * Z) * (Z * Z) => Z.b2z (in_strip i r (mid (fst p)) && in_strip i r (mid (snd p)))).
  set (q := fun e => (snd (mid e) =? 2 * r + 1) && (sx * (2 * i) <? sx * fst (mid e))).
  assert (E : sum (fun p => s p + s p) (steps c) = sum (fun e => Z.b2z (beyond i r e) + Z.b2z (beyond i (r + 1) e) + Z.b2z (is_at (2 * i, 2 * r + 1) e) + 2 * Z.b2z (q e)) once).
  { apply around. intros d e f H1 H2. destruct (step_cell d e H1) as [N1 (k1 & r1 & _ & _ & A1 & A2 & A3 & A4)]. destruct (step_cell e f H2) as [N2 (k2 & r2 & _ & _ & B1 & B2 & B3 & B4)].
    pose proof (pass d e f H1 H2) as P. pose proof (forms d (proj1 (step_in _ _ H1))) as Fd. pose proof (forms f (proj2 (step_in _ _ H2))) as Ff. unfold s, q, beyond, is_at, in_strip. cbn [fst snd].
    destruct (mid d) as [xd yd], (mid e) as [xe ye], (mid f) as [xf yf]. cbn [fst snd] in *.
    assert (Od : (exists k r, xd = 2 * k + 1 /\ yd = 2 * r) \/ (exists k r, xd = 2 * k /\ yd = 2 * r + 1)) by (destruct Fd as [(k & r' & _ & _ & E)|(k & r' & _ & _ & E)]; [left|right]; exists k, r'; split; congruence).
    assert (Of : (exists k r, xf = 2 * k + 1 /\ yf = 2 * r) \/ (exists k r, xf = 2 * k /\ yf = 2 * r + 1)) by (destruct Ff as [(k & r' & _ & _ & E)|(k & r' & _ & _ & E)]; [left|right]; exists k, r'; split; congruence).
    clear Fd Ff H1 H2 s q N1 N2.
    destruct P as [(k & p & _ & _ & E & P)|(k & p & _ & _ & E & P)]; (assert (E1 : xe = fst (xe, ye)) by reflexivity; assert (E2 : ye = snd (xe, ye)) by reflexivity; rewrite E in E1, E2; cbn [fst snd] in E1, E2; clear E; subst xe ye).
    - assert (X : 2 * k <= xd <= 2 * k + 2 /\ 2 * k <= xf <= 2 * k + 2) by lia. assert (Y : (2 * p - 2 <= yd < 2 * p /\ 2 * p < yf <= 2 * p + 2) \/ (2 * p - 2 <= yf < 2 * p /\ 2 * p < yd <= 2 * p + 2)) by lia.
      clear A1 A2 A3 A4 B1 B2 B3 B4 P Od Of k1 k2 r1 r2. destruct SX as [-> | ->], Y as [Y|Y]; lia.
    - assert (X : 2 * p <= yd <= 2 * p + 2 /\ 2 * p <= yf <= 2 * p + 2) by lia. assert (Y : (2 * k - 2 <= xd < 2 * k /\ 2 * k < xf <= 2 * k + 2) \/ (2 * k - 2 <= xf < 2 * k /\ 2 * k < xd <= 2 * k + 2)) by lia.
      clear A1 A2 A3 A4 B1 B2 B3 B4 P Od Of k1 k2 r1 r2. destruct SX as [-> | ->], Y as [Y|Y]; lia. }
  rewrite !sum_plus, sum_times in E. fold (number i r) (number i (r + 1)) (passes (2 * i, 2 * r + 1)) in E.
  exists (sum s (steps c) - sum (fun e => Z.b2z (q e)) once). rewrite Z.mul_sub_distr_l. clear - E. set (A := sum s (steps c)) in *. set (B := sum _ once) in *. lia.
Qed.
Lemma odd_sum a b d h : a + b + d = 2 * h -> xorb (Z.odd a) (Z.odd b) = Z.odd d.
Proof. clear. intro E. rewrite <- Z.odd_add. replace d with (2 * h - (a + b)) by lia. rewrite Z.odd_sub, Z.odd_mul. cbn [Z.odd andb]. destruct (Z.odd (a + b)); reflexivity. Qed.
Lemma column_parity i r : xorb (within i r) (within (i + 1) r) = Z.odd (passes (2 * i + 1, 2 * r)).
Proof. exact (odd_sum _ _ _ _ (next_column i r)). Qed.
Lemma row_parity i r : xorb (within i r) (within i (r + 1)) = Z.odd (passes (2 * i, 2 * r + 1)).
Proof. destruct (next_row i r) as [h E]. exact (odd_sum _ _ _ _ E). Qed.
(** The curve stays away from the border *)
Lemma off_border e : In e c -> (forall k r, mid e = (2 * k + 1, 2 * r) -> 0 < r < rows - 1) /\ (forall k r, mid e = (2 * k, 2 * r + 1) -> 0 < k < cols - 1).
Proof.
  intro H. destruct (neighbours e H) as (d & f & H1 & H2). destruct (step_cell d e H1) as [_ (k1 & r1 & K1 & R1 & A1 & A2 & A3 & A4)]. destruct (step_cell e f H2) as [_ (k2 & r2 & K2 & R2 & B1 & B2 & B3 & B4)].
  destruct (pass d e f H1 H2) as [(k & p & _ & _ & E & P)|(k & p & _ & _ & E & P)]; rewrite E in *; cbn [fst snd] in *; split; intros k' r' E'; pose proof (f_equal fst E') as X; pose proof (f_equal snd E') as Y; cbn [fst snd] in X, Y; lia.
Qed.
Lemma passes_none m : (forall e, In e c -> mid e <> m) -> passes m = 0.
Proof. intro H. apply sum_zero. intros e He. apply once_in in He. specialize (H e He). unfold is_at. destruct (mid e) as [a b], m as [a' b']. cbn [fst snd]. assert (a <> a' \/ b <> b') by (destruct (Z.eq_dec a a'), (Z.eq_dec b b'); subst; try tauto; congruence). lia. Qed.
Lemma bottom_top i r : r = 0 \/ r = rows - 1 -> within i r = false.
Proof.
  intro Hr. unfold within. replace (number i r) with 0; [reflexivity|]. symmetry. apply sum_zero. intros e He. apply once_in in He. unfold beyond. destruct (off_border e He) as [O _].
  destruct (forms e He) as [(k & q & _ & _ & E)|(k & q & _ & _ & E)]; rewrite E in *; cbn [fst snd]; [specialize (O k q eq_refl)|]; lia.
Qed.
Lemma left_right i r : 0 <= r < rows -> i = 0 \/ i = cols - 1 -> within i r = false.
Proof.
  intros Hr Hi. assert (N : forall q, passes (2 * i, 2 * q + 1) = 0).
  { intro q. apply passes_none. intros e He E. destruct (off_border e He) as [_ O]. specialize (O i q E). lia. }
  enough (G : forall n, Z.of_nat n < rows -> within i (Z.of_nat n) = false) by (specialize (G (Z.to_nat r)); rewrite Z2Nat.id in G by lia; apply G; lia).
  induction n as [|n IH]; intro L; [apply bottom_top; left; reflexivity|]. specialize (IH ltac:(lia)). pose proof (row_parity i (Z.of_nat n)) as P. rewrite N, IH in P. cbn in P.
  replace (Z.of_nat (S n)) with (Z.of_nat n + 1) by lia. destruct (within i (Z.of_nat n + 1)); [discriminate P|reflexivity].
Qed.

(** The curve goes through every place at most once *)
Hypothesis Un : forall e, In e c -> passes (mid e) = 1.
Definition inside_at (p : Z) : bool := within (col_of cols p) (row_of cols p).
Lemma separated e : side cols rows e -> xorb (inside_at (fst e)) (inside_at (snd e)) = true <-> exists g, In g c /\ same_side e g.
Proof.
  intro Se. assert (X : xorb (inside_at (fst e)) (inside_at (snd e)) = Z.odd (passes (mid e))).
  { unfold inside_at. destruct (side_mid e Se) as [(k & r & Hk & Hr & E & S1)|(k & r & Hk & Hr & E & S1)]; rewrite E.
    - rewrite <- (column_parity k r). destruct (at_coords cols rows k r ltac:(lia) Hr) as (_ & X1 & Y1). destruct (at_coords cols rows (k + 1) r ltac:(lia) Hr) as (_ & X2 & Y2).
      destruct e as [a b], S1 as [S1|S1]; injection S1 as <- <-; cbn [fst snd]; rewrite X1, Y1, X2, Y2; [reflexivity|apply xorb_comm].
    - rewrite <- (row_parity k r). destruct (at_coords cols rows k r ltac:(lia) ltac:(lia)) as (_ & X1 & Y1). destruct (at_coords cols rows k (r + 1) ltac:(lia) ltac:(lia)) as (_ & X2 & Y2).
      destruct e as [a b], S1 as [S1|S1]; injection S1 as <- <-; cbn [fst snd]; rewrite X1, Y1, X2, Y2; [reflexivity|apply xorb_comm]. }
  rewrite X. split.
  - intro O. assert (Ex : existsb (is_at (mid e)) once = true).
    { destruct (existsb (is_at (mid e)) once) eqn:B; [reflexivity|]. exfalso. enough (passes (mid e) = 0) by (rewrite H in O; discriminate O). apply sum_zero. intros g Hg. destruct (is_at (mid e) g) eqn:D; [|reflexivity]. exfalso.
      enough (existsb (is_at (mid e)) once = true) by congruence. apply existsb_exists. exists g. auto. }
    apply existsb_exists in Ex as (g & Hg & D). apply once_in in Hg. exists g. split; [exact Hg|]. apply mid_same; [exact Se|apply (cv_sides _ _ _ _ Ic g Hg)|].
    unfold is_at in D. apply andb_true_iff in D as [D1 D2]. apply Z.eqb_eq in D1, D2. destruct (mid e), (mid g). cbn in *. congruence.
  - intros (g & Hg & S). rewrite <- (same_mid _ _ S), (Un g Hg). reflexivity.
Qed.
Lemma border_outside p : in_mesh cols rows p -> row_of cols p = 0 \/ row_of cols p = rows - 1 \/ col_of cols p = 0 \/ col_of cols p = cols - 1 -> inside_at p = false.
Proof. intros Ip H. destruct (coords cols rows p C1 Ip) as (P1 & P2 & _). unfold inside_at. destruct H as [H|[H|H]]; [apply bottom_top; auto|apply bottom_top; auto|apply left_right; auto]. Qed.
Lemma apart e : In e c -> inside_at (fst e) = negb (inside_at (snd e)).
Proof. intro H. pose proof (proj2 (separated e (proj1 (cv_sides _ _ _ _ Ic e H))) (ex_intro _ e (conj H (or_introl eq_refl)))) as X. destruct (inside_at (fst e)), (inside_at (snd e)); cbn in *; congruence. Qed.
(** The ends above the level are all inside or all outside *)
Definition high_end (e : Z * Z) : Z := if above (fst e) then fst e else snd e.
Definition low_end (e : Z * Z) : Z := if above (fst e) then snd e else fst e.
Lemma ends_two e : In e c -> above (high_end e) = true /\ above (low_end e) = false /\ inside_at (high_end e) = negb (inside_at (low_end e)) /\ (forall p, p = fst e \/ p = snd e -> (above p = true -> p = high_end e) /\ (above p = false -> p = low_end e)) /\
  (high_end e = fst e \/ high_end e = snd e) /\ (low_end e = fst e \/ low_end e = snd e).
Proof.
  intro H. pose proof (apart e H) as A. destruct (cv_sides _ _ _ _ Ic e H) as [_ Ce]. unfold crossed, high_end, low_end in *. destruct (above (fst e)) eqn:A1, (above (snd e)) eqn:A2; try congruence.
  - split; [first [exact A1|reflexivity]|]. split; [first [exact A2|reflexivity]|]. split; [exact A|]. split; [|auto]. intros p [-> | ->]; split; congruence.
  - split; [first [exact A2|reflexivity]|]. split; [first [exact A1|reflexivity]|]. split; [rewrite A, negb_involutive; reflexivity|]. split; [|auto]. intros p [-> | ->]; split; congruence.
Qed.
Lemma step_alike e f : In (e, f) (steps c) -> inside_at (high_end e) = inside_at (high_end f).
Proof.
  intro H. destruct (step_in _ _ H) as [Ie If]. destruct (ends_two e Ie) as (E1 & E2 & E3 & E4 & E5 & E6). destruct (ends_two f If) as (F1 & F2 & F3 & F4 & F5 & F6).
  assert (Sh : forall p, (p = fst e \/ p = snd e) -> (p = fst f \/ p = snd f) -> inside_at (high_end e) = inside_at (high_end f)).
  { intros p Pe Pf. destruct (E4 p Pe) as [X1 X2]. destruct (F4 p Pf) as [Y1 Y2]. destruct (above p) eqn:A; [rewrite <- X1, <- Y1 by reflexivity; reflexivity|]. rewrite E3, F3, <- X2, <- Y2 by reflexivity. reflexivity. }
  assert (Nb : side cols rows (high_end e, high_end f) -> inside_at (high_end e) = inside_at (high_end f)).
  { intro S. destruct (xorb (inside_at (high_end e)) (inside_at (high_end f))) eqn:X; [|apply Bool.xorb_eq; exact X]. exfalso. apply (separated (high_end e, high_end f) S) in X as (g & Hg & G).
    destruct (cv_sides _ _ _ _ Ic g Hg) as [_ Cg]. unfold crossed in Cg. destruct G as [-> | ->]; cbn [fst snd] in Cg; congruence. }
  pose proof (Hl e f (high_end e) (proj1 (step_next _ _) H)) as [L1 _]; [unfold end_of; tauto|]. pose proof (Hl e f (high_end f) (proj1 (step_next _ _) H)) as [L2 _]; [unfold end_of; tauto|]. specialize (L1 E1). specialize (L2 F1).
  destruct (step_cell e f H) as [N (k & r & Hk & Hr & A1 & A2 & A3 & A4)]. pose proof (cv_sides _ _ _ _ Ic e Ie) as [Se _]. pose proof (cv_sides _ _ _ _ Ic f If) as [Sf _].
  assert (K : forall a b, 0 <= a < cols -> 0 <= b < rows -> in_mesh cols rows (a + b * cols) /\ col_of cols (a + b * cols) = a /\ row_of cols (a + b * cols) = b) by (intros; apply at_coords; assumption).
  destruct (side_mid e Se) as [(a & b & Ha & Hb & Me & S1)|(a & b & Ha & Hb & Me & S1)], (side_mid f Sf) as [(a' & b' & Ha' & Hb' & Mf & S2)|(a' & b' & Ha' & Hb' & Mf & S2)]; rewrite Me, Mf in *; cbn [fst snd] in *.
  - assert (a' = a) by lia. subst a'. assert (Hne : b <> b') by (intros ->; apply N; reflexivity).
    assert (Pe : high_end e = a + b * cols \/ high_end e = a + 1 + b * cols) by (destruct e as [p q], S1 as [S1|S1]; injection S1 as <- <-; cbn [fst snd] in E5; tauto).
    assert (Pf : high_end f = a + b' * cols \/ high_end f = a + 1 + b' * cols) by (destruct f as [p q], S2 as [S2|S2]; injection S2 as <- <-; cbn [fst snd] in F5; tauto).
    destruct (K a b ltac:(lia) Hb) as (I1 & X1 & Y1), (K (a + 1) b ltac:(lia) Hb) as (I2 & X2 & Y2), (K a b' ltac:(lia) Hb') as (I3 & X3 & Y3), (K (a + 1) b' ltac:(lia) Hb') as (I4 & X4 & Y4).
    apply Nb. unfold leftness, place_of in L1, L2. destruct Pe as [Pe|Pe], Pf as [Pf|Pf]; rewrite Pe in L1; rewrite Pf in L2; rewrite ?X1, ?X2, ?X3, ?X4, ?Y1, ?Y2, ?Y3, ?Y4 in L1, L2; cbn [fst snd] in L1, L2; try (exfalso; lia);
      rewrite Pe, Pf; (split; [assumption|]); (split; [assumption|]); right; rewrite ?X1, ?X2, ?X3, ?X4, ?Y1, ?Y2, ?Y3, ?Y4; lia.
  - assert (Ca : a' = a \/ a' = a + 1) by lia. assert (Cb : b' = b \/ b' + 1 = b) by lia. apply (Sh (a' + b * cols)).
    + destruct e as [p q], S1 as [S1|S1]; injection S1 as <- <-; cbn [fst snd]; destruct Ca as [-> | ->]; auto.
    + destruct f as [p q], S2 as [S2|S2]; injection S2 as <- <-; cbn [fst snd]; destruct Cb as [-> | <-]; auto.
  - assert (Ca : a = a' \/ a = a' + 1) by lia. assert (Cb : b = b' \/ b + 1 = b') by lia. apply (Sh (a + b' * cols)).
    + destruct e as [p q], S1 as [S1|S1]; injection S1 as <- <-; cbn [fst snd]; destruct Cb as [-> | <-]; auto.
    + destruct f as [p q], S2 as [S2|S2]; injection S2 as <- <-; cbn [fst snd]; destruct Ca as [-> | ->]; auto.
  - assert (b' = b) by lia. subst b'. assert (Hne : a <> a') by (intros ->; apply N; reflexivity).
    assert (Pe : high_end e = a + b * cols \/ high_end e = a + (b + 1) * cols) by (destruct e as [p q], S1 as [S1|S1]; injection S1 as <- <-; cbn [fst snd] in E5; tauto).
    assert (Pf : high_end f = a' + b * cols \/ high_end f = a' + (b + 1) * cols) by (destruct f as [p q], S2 as [S2|S2]; injection S2 as <- <-; cbn [fst snd] in F5; tauto).
    destruct (K a b Ha ltac:(lia)) as (I1 & X1 & Y1), (K a (b + 1) Ha ltac:(lia)) as (I2 & X2 & Y2), (K a' b Ha' ltac:(lia)) as (I3 & X3 & Y3), (K a' (b + 1) Ha' ltac:(lia)) as (I4 & X4 & Y4).
    apply Nb. unfold leftness, place_of in L1, L2. destruct Pe as [Pe|Pe], Pf as [Pf|Pf]; rewrite Pe in L1; rewrite Pf in L2; rewrite ?X1, ?X2, ?X3, ?X4, ?Y1, ?Y2, ?Y3, ?Y4 in L1, L2; cbn [fst snd] in L1, L2; try (exfalso; lia);
      rewrite Pe, Pf; (split; [assumption|]); (split; [assumption|]); left; rewrite ?X1, ?X2, ?X3, ?X4, ?Y1, ?Y2, ?Y3, ?Y4; lia.
Qed.
Lemma high_ends_alike e f : In e c -> In f c -> inside_at (high_end e) = inside_at (high_end f).
Proof. apply (all_alike (fun e => inside_at (high_end e))). exact step_alike. Qed.
End Loop.

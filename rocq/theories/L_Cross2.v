(** Every line of a level inside a cell divides the rim of the cell; lines in one cell and in two cells. *)
From Coq Require Import Reals Lra Lia Bool Psatz Classical.
From Verif Require Import M_Base M_Extract S_Cntr S_Lines2 S_Cross L_Cross.
Open Scope R_scope.

Definition turn (p : place) : place := (snd p, fst p).
Definition turned (c : place -> R * R * R) (p : place) : R * R * R := (lat c (turn p), lon c (turn p), val c (turn p)).
Lemma turn_next p q : next_to (turn p) (turn q) <-> next_to p q. Proof. unfold next_to, turn. cbn. tauto. Qed.
Lemma turn_turn p : turn (turn p) = p. Proof. destruct p. reflexivity. Qed.
Lemma turned_met c level p q u : met c level p q u -> met (turned c) level (turn p) (turn q) (snd u, fst u).
Proof.
  intros (N & C & t & E & ->). unfold met, turned, val, lon, lat. cbn [fst snd]. rewrite !turn_turn. split; [apply turn_next; exact N|]. split; [exact C|]. exists t. split; [exact E|]. reflexivity.
Qed.
Lemma turned_rim c p w : rim c p w -> rim (turned c) (snd p, fst p) w.
Proof. intros (a & b & t & N & T & -> & ->). exists (turn a), (turn b), t. unfold turned, val, lon, lat. cbn [fst snd]. rewrite !turn_turn. split; [apply turn_next; exact N|]. split; [exact T|]. split; reflexivity. Qed.
Lemma turned_saddle c level : saddle c level <-> saddle (turned c) level.
Proof.
  unfold saddle, turned, val. cbn [snd]. split; intros S a b N.
  - apply (S (turn a) (turn b)). apply turn_next. exact N.
  - specialize (S (turn a) (turn b)). rewrite !turn_turn in S. apply S. apply turn_next. exact N.
Qed.
Lemma turned_mean c : mean (turned c) = mean c. Proof. unfold mean, turned, val, turn. cbn [fst snd]. field. Qed.
Lemma turned_divides c level u v k : divides (turned c) level (snd u, fst u) (snd v, fst v) (affine k) -> divides c level u v (affine (fst (fst k), snd k, snd (fst k))).
Proof.
  assert (A : forall p, affine (fst (fst k), snd k, snd (fst k)) p = affine k (snd p, fst p)) by (intro p; unfold affine; cbn [fst snd]; ring).
  intros (D1 & D2 & D3 & D4 & D5 & D6 & D7). unfold divides. rewrite !A. split; [exact D1|]. split; [exact D2|]. split; [|split; [|split; [|split]]].
  - intros p w Rp Hp. rewrite A in Hp. exact (D3 _ _ (turned_rim _ _ _ Rp) Hp).
  - intros S p w Rp Hp. rewrite A. refine (D4 _ _ _ (turned_rim _ _ _ Rp) Hp). intro T. rewrite turned_mean. apply S. apply turned_saddle. exact T.
  - intros S p w Rp Hp. rewrite A. refine (D5 _ _ _ (turned_rim _ _ _ Rp) Hp). intro T. rewrite turned_mean. apply S. apply turned_saddle. exact T.
  - destruct D6 as [D6|D6]; [left|right]; intros p Rp; rewrite A; apply D6; apply turned_rim; exact Rp.
  - intros Ne p w Rp Hp. rewrite A in Hp. destruct (D7 (fun a => Ne (turn a)) _ _ (turned_rim _ _ _ Rp) Hp) as [E|E]; [left|right]; injection E as E1 E2; destruct p; cbn [fst snd] in *; subst; [destruct u|destruct v]; reflexivity.
Qed.
Lemma divides_flip c level u v k : divides c level u v k -> divides c level v u k.
Proof. intros (D1 & D2 & D3 & D4 & D5 & D6 & D7). split; [exact D2|]. split; [exact D1|]. split; [exact D3|]. split; [exact D4|]. split; [exact D5|]. split; [exact D6|]. intros Ne p w Rp Hp. destruct (D7 Ne p w Rp Hp); auto. Qed.

Section Rect2.
Variable c : place -> R * R * R.
Variables X Y : bool -> R.
Hypothesis HX : forall p, lon c p = X (fst p).
Hypothesis HY : forall p, lat c p = Y (snd p).
Hypothesis NX : X false <> X true.
Hypothesis NY : Y false <> Y true.
Notation V := (val c).
Lemma turned_X : forall p, lon (turned c) p = Y (fst p). Proof. intro p. unfold turned, lon at 1. cbn [fst snd]. rewrite HY. reflexivity. Qed.
Lemma turned_Y : forall p, lat (turned c) p = X (snd p). Proof. intro p. unfold turned, lat at 1. cbn [fst snd]. rewrite HX. reflexivity. Qed.
Lemma across_lon level i j u v : met c level (i, j) (negb i, j) u -> met c level (i, negb j) (negb i, negb j) v -> V (i, j) > level -> V (i, negb j) > level -> exists k, divides c level u v (affine k).
Proof.
  intros Mu Mv A B. destruct (across_lat (turned c) Y X turned_X turned_Y NY NX level j i _ _ (turned_met _ _ _ _ _ Mu) (turned_met _ _ _ _ _ Mv) A B) as [k D].
  eexists. exact (turned_divides _ _ _ _ _ D).
Qed.
Lemma saddle_of level i j : V (i, j) > level -> V (negb i, j) <= level -> V (i, negb j) <= level -> V (negb i, negb j) > level -> saddle c level.
Proof. intros A B C D [[|] [|]] [[|] [|]] N; unfold next_to in N; cbn in N; destruct i, j; cbn in *; try (exfalso; intuition congruence); lra. Qed.
(** The two sides of a line have a corner in common or are opposite *)
Lemma two_sides p q p' q' : next_to p q -> next_to p' q' -> ~ (p = p' /\ q = q') -> ~ (p = q' /\ q = p') ->
  exists i j, let K := (i, j) in let P := (negb i, j) in let Q := (i, negb j) in let O := (negb i, negb j) in
    let is a b a' b' := (a = a' /\ b = b') \/ (a = b' /\ b = a') in
    (is p q K P /\ is p' q' K Q) \/ (is p q K Q /\ is p' q' K P) \/ (is p q K Q /\ is p' q' P O) \/ (is p q K P /\ is p' q' Q O).
Proof.
  intros N1 N2 N3 N4. destruct p as [a b], q as [a1 b1], p' as [a' b'], q' as [a1' b1']. unfold next_to in *. cbn [fst snd] in *.
  destruct N1 as [[-> N1]|[N1 ->]], N2 as [[-> N2]|[N2 ->]].
  - (* both along the latitude *) exists a1, b. cbn. right. right. left. assert (a1' = negb a1) by (destruct a1, a1'; try reflexivity; exfalso; destruct b, b1, b', b1'; congruence || (apply N3; split; reflexivity) || (apply N4; split; reflexivity)). subst a1'.
    assert (b1 = negb b) by (destruct b, b1; cbn; congruence). subst b1. split; [left; split; reflexivity|]. destruct b, b', b1'; cbn; try congruence; auto.
  - (* first along the latitude, second along the longitude *) exists a1, b1'. cbn. right. left. split; [destruct b, b1, b1'; cbn; try congruence; auto|destruct a', a1', a1; cbn; try congruence; auto].
  - exists a1', b1. cbn. left. split; [destruct a, a1, a1'; cbn; try congruence; auto|destruct b', b1', b1; cbn; try congruence; auto].
  - exists a, b1. cbn. right. right. right. assert (b1' = negb b1) by (destruct b1, b1'; try reflexivity; exfalso; destruct a, a1, a', a1'; congruence || (apply N3; split; reflexivity) || (apply N4; split; reflexivity)). subst b1'.
    assert (a1 = negb a) by (destruct a, a1; cbn; congruence). subst a1. split; [left; split; reflexivity|]. destruct a, a', a1'; cbn; try congruence; auto.
Qed.
Lemma met_is level p q a b u : (p = a /\ q = b) \/ (p = b /\ q = a) -> met c level p q u -> met c level a b u.
Proof. intros [[-> ->]|[-> ->]] M; [exact M|apply met_sym; exact M]. Qed.
Lemma chord level u v : line_in_cell c level u v -> exists k, divides c level u v (affine k).
Proof.
  intros (p & q & p' & q' & M1 & M2 & N1 & N2 & S). destruct (two_sides p q p' q' (proj1 M1) (proj1 M2) N1 N2) as (i & j & H). cbn zeta in H.
  assert (Cor : forall K, (K = p \/ K = q) -> (K = p' \/ K = q') -> saddle c level -> (V K > level <-> mean c <= level)).
  { intros K K1 K2 Sd. destruct (S Sd) as (k & A & B & C). replace K with k; [exact C|].
    destruct A as [->| ->], B as [E|E], K1 as [->| ->], K2 as [E2|E2]; try congruence; exfalso; auto. }
  destruct H as [[H1 H2]|[[H1 H2]|[[H1 H2]|[H1 H2]]]]; apply (met_is _ _ _ _ _ _ H1) in M1; apply (met_is _ _ _ _ _ _ H2) in M2.
  - apply (around_corner c X Y HX HY NX NY level i j u v M1 M2). apply Cor; [destruct H1 as [[-> ->]|[-> ->]]; auto|destruct H2 as [[-> ->]|[-> ->]]; auto].
  - destruct (around_corner c X Y HX HY NX NY level i j v u M2 M1) as [k D]; [apply Cor; [destruct H1 as [[-> ->]|[-> ->]]; auto|destruct H2 as [[-> ->]|[-> ->]]; auto]|]. exists k. apply divides_flip. exact D.
  - (* opposite sides, along the latitude *)
    assert (NS : ~ saddle c level).
    { intro Sd. destruct (S Sd) as (k & A & B & _). destruct H1 as [[-> ->]|[-> ->]], H2 as [[-> ->]|[-> ->]]; destruct A as [->| ->], B as [B|B]; injection B; destruct i, j; discriminate. }
    pose proof (proj1 (proj2 M1)) as C1. pose proof (proj1 (proj2 M2)) as C2.
    destruct C1 as [[A1 B1]|[A1 B1]], C2 as [[A2 B2]|[A2 B2]].
    + exact (across_lat c X Y HX HY NX NY level i j u v M1 M2 A1 A2).
    + exfalso. apply NS. exact (saddle_of level i j A1 A2 B1 B2).
    + exfalso. apply NS. apply (saddle_of level i (negb j)); rewrite ?negb_involutive; assumption.
    + apply (across_lat c X Y HX HY NX NY level i (negb j) u v); rewrite ?negb_involutive; try assumption; apply met_sym; assumption.
  - assert (NS : ~ saddle c level).
    { intro Sd. destruct (S Sd) as (k & A & B & _). destruct H1 as [[-> ->]|[-> ->]], H2 as [[-> ->]|[-> ->]]; destruct A as [->| ->], B as [B|B]; injection B; destruct i, j; discriminate. }
    pose proof (proj1 (proj2 M1)) as C1. pose proof (proj1 (proj2 M2)) as C2.
    destruct C1 as [[A1 B1]|[A1 B1]], C2 as [[A2 B2]|[A2 B2]].
    + exact (across_lon level i j u v M1 M2 A1 A2).
    + exfalso. apply NS. exact (saddle_of level i j A1 B1 A2 B2).
    + exfalso. apply NS. apply (saddle_of level (negb i) j); rewrite ?negb_involutive; assumption.
    + apply (across_lon level (negb i) j u v); rewrite ?negb_involutive; try assumption; apply met_sym; assumption.
Qed.
Lemma line_rim level u v : line_in_cell c level u v -> rim c u level /\ rim c v level.
Proof. intros (p & q & p' & q' & M1 & M2 & _). split; [exact (met_rim _ _ _ _ _ M1)|exact (met_rim _ _ _ _ _ M2)]. Qed.
Lemma affine_on k p u v s : p = (fst u + s * (fst v - fst u), snd u + s * (snd v - snd u)) -> affine k p = (1 - s) * affine k u + s * affine k v.
Proof. intros ->. unfold affine. cbn [fst snd]. ring. Qed.
(** Two levels in one cell *)
Lemma levels_apart level level' u v u' v' p : level < level' -> line_in_cell c level u v -> line_in_cell c level' u' v' -> on_line p u v -> on_line p u' v' -> False.
Proof.
  intros Lt L1 L2 (s & Hs & Es) (s' & Hs' & Es'). destruct (chord level u v L1) as [k D]. destruct (chord level' u' v' L2) as [k' D'].
  destruct (line_rim _ _ _ L1) as [Ru Rv]. destruct (line_rim _ _ _ L2) as [Ru' Rv'].
  destruct D as (Du & Dv & _ & Up & _). destruct D' as (Du' & Dv' & _ & _ & Dn & _).
  pose proof (affine_on k p u v s Es) as P1. pose proof (affine_on k p u' v' s' Es') as P2. pose proof (affine_on k' p u v s Es) as P3. pose proof (affine_on k' p u' v' s' Es') as P4.
  rewrite Du, Dv in P1. rewrite Du', Dv' in P4.
  destruct (classic (saddle c level -> mean c > level)) as [S|S].
  - pose proof (Up S _ _ Ru' Lt) as A. pose proof (Up S _ _ Rv' Lt) as B. nra.
  - assert (S' : saddle c level' -> mean c <= level') by (intros _; apply Rnot_lt_le; intro; apply S; intros; lra). pose proof (Dn S' _ _ Ru Lt) as A. pose proof (Dn S' _ _ Rv Lt) as B. nra.
Qed.
(** The rim of the cell on a line of the level *)
Lemma line_on_rim level u v p w : line_in_cell c level u v -> on_line p u v -> rim c p w -> w = level.
Proof.
  intros L (s & Hs & Es) Rp. destruct (chord level u v L) as [k D]. destruct D as (Du & Dv & B & _). apply (B p w Rp). rewrite (affine_on k p u v s Es), Du, Dv. ring.
Qed.
Lemma line_ends level u v p w : (forall a, V a <> level) -> line_in_cell c level u v -> on_line p u v -> rim c p w -> p = u \/ p = v.
Proof.
  intros Ne L (s & Hs & Es) Rp. destruct (chord level u v L) as [k D]. destruct D as (Du & Dv & _ & _ & _ & _ & B). apply (B Ne p w Rp). rewrite (affine_on k p u v s Es), Du, Dv. ring.
Qed.
(** One level in one cell *)
Lemma lines_apart level u v u' v' p : (forall a, V a <> level) -> line_in_cell c level u v -> line_in_cell c level u' v' -> on_line p u v -> on_line p u' v' ->
  ((u' = u /\ v' = v) \/ (u' = v /\ v' = u)) \/ ((p = u \/ p = v) /\ (p = u' \/ p = v')).
Proof.
  intros Ne L1 L2 (s & Hs & Es) (s' & Hs' & Es'). destruct (chord level u v L1) as [k D]. destruct D as (Du & Dv & B & _ & _ & Sg & En). destruct (line_rim _ _ _ L2) as [Ru' Rv'].
  pose proof (affine_on k p u v s Es) as P1. rewrite Du, Dv in P1. pose proof (affine_on k p u' v' s' Es') as P2.
  assert (Z1 : s' <> 1 -> affine k u' = 0) by (intro; destruct Sg as [Sg|Sg]; pose proof (Sg _ Ru'); pose proof (Sg _ Rv'); assert (0 < 1 - s') by lra; nra).
  assert (Z2 : s' <> 0 -> affine k v' = 0) by (intro; destruct Sg as [Sg|Sg]; pose proof (Sg _ Ru'); pose proof (Sg _ Rv'); assert (0 < s') by lra; nra).
  assert (T0 : s' = 0 -> p = u') by (intros ->; rewrite Es'; destruct u'; cbn [fst snd]; f_equal; ring). assert (T1 : s' = 1 -> p = v') by (intros ->; rewrite Es'; destruct v'; cbn [fst snd]; f_equal; ring).
  destruct (Req_dec s' 0) as [E0|E0]; [|destruct (Req_dec s' 1) as [E1|E1]].
  - right. specialize (T0 E0). split; [|left; exact T0]. rewrite T0. apply (En Ne _ _ Ru'). apply Z1. lra.
  - right. specialize (T1 E1). split; [|right; exact T1]. rewrite T1. apply (En Ne _ _ Rv'). apply Z2. lra.
  - destruct (En Ne _ _ Ru' (Z1 E1)) as [->| ->], (En Ne _ _ Rv' (Z2 E0)) as [->| ->].
    + right. assert (p = u) by (rewrite Es'; destruct u; cbn [fst snd]; f_equal; ring). auto.
    + left. left. auto.
    + left. right. auto.
    + right. assert (p = v) by (rewrite Es'; destruct v; cbn [fst snd]; f_equal; ring). auto.
Qed.
End Rect2.

(** From the sites of the tracer to the sides of the mesh *)
From Coq Require Import Lia.
From Verif Require Import M_Base M_Cntr S_Cntr L_Cntr1 L_Cntr2 L_Cntr4 L_Cntr7 L_Cntr9 L_Cntr10.

Section Sides.
Variables imax jmax : Z.
Variable above : Z -> bool.
Hypothesis I2 : 2 <= imax.
Hypothesis J2 : 2 <= jmax.
Notation high := (high imax above).
Notation flat := (flat imax).
Notation ends := (ends imax).
Notation edge_ok := (edge_ok imax jmax).
Notation valid := (valid imax jmax).
Notation cut := (cut high).
Notation trail := (trail imax jmax high).
Notation step := (step high).
Notation side := (side imax jmax).
Notation crossed := (crossed above).
Notation outer := (outer imax jmax).
Notation side_of_cell := (side_of_cell imax jmax).
Notation w_points := (w_points imax).

Lemma colrow x y : 0 <= x < imax -> col_of imax (x + y * imax) = x /\ row_of imax (x + y * imax) = y.
Proof. intro H. unfold col_of, row_of. exact (divmod imax ltac:(lia) x y H). Qed.
Lemma flat_mesh x y : 0 <= x < imax -> 0 <= y < jmax -> S_Cntr.in_mesh imax jmax (x + y * imax).
Proof. intros. unfold S_Cntr.in_mesh. nia. Qed.
Ltac cr x y := let H1 := fresh in let H2 := fresh in destruct (colrow x y ltac:(lia)) as [H1 H2]; rewrite ?H1, ?H2; clear H1 H2.
Lemma ends_side s : edge_ok s -> side (ends s).
Proof.
  destruct s as [x y []]; unfold L_Cntr1.edge_ok, L_Cntr2.ends, L_Cntr2.flat; cbn [isj sd sx sy pt0 pt1 fst snd]; intro H;
  (split; [apply flat_mesh; lia|]); (split; [apply flat_mesh; lia|]).
  - right. cr x (y - 1). cr x y. lia.
  - right. cr x y. cr x (y - 1). lia.
  - left. cr (x - 1) y. cr x y. lia.
  - left. cr x y. cr (x - 1) y. lia.
Qed.
Lemma ends_crossed s : cut s -> crossed (ends s).
Proof. unfold L_Cntr1.cut, S_Cntr.crossed, L_Cntr2.ends, L_Cntr2.high. cbn [fst snd]. intros ->. apply no_fixpoint_negb. Qed.
Lemma ends_flip s : ends (flip s) = (snd (ends s), fst (ends s)).
Proof. unfold L_Cntr2.ends. destruct (pt_flip s) as [-> ->]. reflexivity. Qed.
Lemma same_ends e s : same_sideb e (ends (flip s)) = same_sideb e (ends s).
Proof. rewrite ends_flip. unfold same_sideb. cbn [fst snd]. apply orb_comm. Qed.
Lemma same_spec e f : same_sideb e f = true <-> same_side e f.
Proof.
  unfold same_sideb, same_side. destruct e as [a b], f as [c d]. cbn [fst snd]. rewrite orb_true_iff, !andb_true_iff, !Z.eqb_eq. split; intros [H|H].
  - left. f_equal; lia.
  - right. f_equal; lia.
  - injection H as -> ->. lia.
  - injection H as -> ->. lia.
Qed.
Lemma same_key s t : edge_ok s -> edge_ok t -> same_sideb (ends s) (ends t) = true <-> key s = key t.
Proof.
  intros Hs Ht. split.
  - assert (Q : forall x y x' y', 0 <= x < imax -> 0 <= x' < imax -> x + y * imax = x' + y' * imax -> x = x' /\ y = y').
    { intros x y x' y' A B E. destruct (colrow x y A) as [C1 R1]. destruct (colrow x' y' B) as [C2 R2]. rewrite E in C1, R1. split; congruence. }
    destruct s as [x y d], t as [u v e]. unfold same_sideb, L_Cntr2.ends, L_Cntr2.flat, key. rewrite orb_true_iff, !andb_true_iff, !Z.eqb_eq. unfold L_Cntr1.edge_ok in *. cbn [isj sd sx sy fst snd] in *.
    destruct d, e; cbn [isj sd sx sy fst snd pt0 pt1] in *; intros [[E1 E2]|[E1 E2]]; apply Q in E1; try lia; apply Q in E2; try lia; destruct E1, E2; first [f_equal; [f_equal|]; lia | exfalso; lia].
  - intro E. apply key_eq in E as [->| ->]; [|rewrite same_ends]; apply same_spec; left; reflexivity.
Qed.
Lemma side_site e : side e -> exists s, edge_ok s /\ e = ends s.
Proof.
  destruct e as [p q]. intros [Hp [Hq H]]. unfold S_Cntr.in_mesh, row_of, col_of in *.
  pose proof (Z.div_mod p imax ltac:(lia)). pose proof (Z.div_mod q imax ltac:(lia)). pose proof (Z.mod_pos_bound p imax ltac:(lia)). pose proof (Z.mod_pos_bound q imax ltac:(lia)).
  assert (0 <= p / imax < jmax) by (split; [apply Z.div_pos; lia|apply Z.div_lt_upper_bound; lia]). assert (0 <= q / imax < jmax) by (split; [apply Z.div_pos; lia|apply Z.div_lt_upper_bound; lia]).
  destruct H as [[R C]|[C R]].
  - destruct (Z.lt_ge_cases (p mod imax) (q mod imax)).
    + exists (mkS (q mod imax) (q / imax) Up). split; [unfold L_Cntr1.edge_ok; cbn; lia|]. unfold L_Cntr2.ends, L_Cntr2.flat. cbn [sd sx sy pt0 pt1 fst snd]. f_equal; nia.
    + exists (mkS (p mod imax) (p / imax) Dn). split; [unfold L_Cntr1.edge_ok; cbn; lia|]. unfold L_Cntr2.ends, L_Cntr2.flat. cbn [sd sx sy pt0 pt1 fst snd]. f_equal; nia.
  - destruct (Z.lt_ge_cases (p / imax) (q / imax)).
    + exists (mkS (q mod imax) (q / imax) Le). split; [unfold L_Cntr1.edge_ok; cbn; lia|]. unfold L_Cntr2.ends, L_Cntr2.flat. cbn [sd sx sy pt0 pt1 fst snd]. f_equal; nia.
    + exists (mkS (p mod imax) (p / imax) Ri). split; [unfold L_Cntr1.edge_ok; cbn; lia|]. unfold L_Cntr2.ends, L_Cntr2.flat. cbn [sd sx sy pt0 pt1 fst snd]. f_equal; nia.
Qed.
Lemma crossed_cut s : crossed (ends s) -> cut s.
Proof. unfold L_Cntr1.cut, S_Cntr.crossed, L_Cntr2.ends, L_Cntr2.high. cbn [fst snd]. intro H. destruct (above (flat (pt0 s))), (above (flat (pt1 s))); cbn; congruence. Qed.
Lemma outer_flip s : outer (ends s) -> outer (ends (flip s)).
Proof. rewrite ends_flip. unfold S_Cntr.outer. destruct (ends s) as [p q]. cbn. tauto. Qed.
Lemma outer_site s : edge_ok s -> ~ valid s -> outer (ends s).
Proof.
  destruct s as [x y []]; unfold L_Cntr1.edge_ok, L_Cntr1.valid, L_Cntr2.ends, L_Cntr2.flat, S_Cntr.outer; cbn [isj sd sx sy pt0 pt1 fst snd zone_of]; intros H V.
  - cr x (y - 1). cr x y. lia.
  - cr x y. cr x (y - 1). lia.
  - cr (x - 1) y. cr x y. lia.
  - cr x y. cr (x - 1) y. lia.
Qed.
(** The cell of a zone *)
Definition cell_of (p : Z * Z) : Z * Z := (fst p - 1, snd p - 1).
Lemma ends_cell s : valid s -> side_of_cell (cell_of (zone_of s)) (ends s).
Proof.
  intro V. split; [revert V; unfold L_Cntr1.valid, S_Cntr.is_cell, cell_of; cbn [fst snd]; lia|]. split; [apply ends_side, valid_edge, V|].
  revert V. destruct s as [x y []]; unfold L_Cntr1.valid, L_Cntr2.ends, L_Cntr2.flat, S_Cntr.point_of_cell, cell_of; cbn [isj sd sx sy pt0 pt1 fst snd zone_of]; intro V.
  - cr x (y - 1). cr x y. lia.
  - cr x y. cr x (y - 1). lia.
  - cr (x - 1) y. cr x y. lia.
  - cr x y. cr (x - 1) y. lia.
Qed.
Lemma swap_cell q e : side_of_cell q e -> side_of_cell q (snd e, fst e).
Proof. intros [A [B [C D]]]. split; [exact A|]. split; [|auto]. destruct e as [p r]. cbn. destruct B as [B1 [B2 B3]]. split; [exact B2|]. split; [exact B1|]. lia. Qed.
Lemma step_cell T s : valid s -> side_of_cell (cell_of (zone_of s)) (ends (step T s)) /\ side_of_cell (cell_of (zone_of s)) (ends (flip (step T s))).
Proof.
  intro V. destruct (step_ok imax jmax high T s V) as [_ [V' E]]. rewrite <- E. split; [|apply ends_cell, V']. pose proof (swap_cell _ _ (ends_cell _ V')) as H. rewrite <- ends_flip, flip_flip in H. exact H.
Qed.
Lemma step_other T s : valid s -> ~ same_side (ends s) (ends (step T s)) /\ ~ same_side (ends s) (ends (flip (step T s))).
Proof.
  intro V. destruct (step_ok imax jmax high T s V) as [O [V' _]].
  assert (K : key s <> key (step T s)) by (unfold L_Cntr1.step, go; destruct s as [x y []], (way high T _) as [[]|]; unfold key; cbn; intro E; injection E; try congruence; lia).
  assert (N : ~ same_side (ends s) (ends (step T s))) by (rewrite <- same_spec; intro H; apply K, (same_key s (step T s)); [apply valid_edge, V|exact O|exact H]).
  split; [exact N|]. rewrite <- same_spec, same_ends, same_spec. exact N.
Qed.
Lemma trail_next T s l t t' : trail T s l t -> (t' = t \/ t' = flip t) -> forall p q, next_in (map ends l ++ [ends t']) p q -> exists u, In u l /\ p = ends u /\ (q = ends (step T u) \/ q = ends (flip (step T u))).
Proof.
  induction 1 as [s|s l t V H IH]; intros Ht p q [l1 [l2 E]].
  - destruct l1 as [|? [|? ?]]; discriminate.
  - destruct l1 as [|x l1].
    + cbn in E. injection E as <- E. exists s. split; [left; reflexivity|]. split; [reflexivity|]. destruct l as [|u l].
      * inversion H; subst. cbn in E. injection E as <- _. destruct Ht as [->| ->]; auto.
      * pose proof (trail_head _ _ _ _ _ _ _ _ H) as ->. cbn in E. injection E as <- _. auto.
    + cbn in E. injection E as _ E. destruct (IH Ht p q) as [u [A B]]; [exists l1, l2; exact E|]. exists u. split; [right; exact A|exact B].
Qed.

Lemma w_curve T w : w_full imax jmax above T w -> is_curve imax jmax above (w_points w).
Proof.
  destruct w as [[[r b] l] e]. intros [[C [H [L [N X]]]] V]. unfold L_Cntr9.w_points. set (t' := if b then r else flip e).
  assert (Ht : t' = e \/ t' = flip e) by (unfold t'; destruct b; [left; symmetry; exact X|right; reflexivity]).
  destruct (trail_col _ _ _ _ _ _ _ H C) as [Ce [_ Cl]]. destruct (trail_end _ _ _ _ _ _ _ H L) as [Oe Ve].
  assert (Ot : edge_ok t' /\ cut t') by (destruct Ht as [->| ->]; split; auto using edge_flip, cut_flip).
  destruct (trail_first _ _ _ _ _ _ _ [] H L) as [l' [El _]].
  constructor.
  - rewrite app_length, map_length. cbn. destruct l; [congruence|cbn; lia].
  - intros p Hp. apply in_app_or in Hp as [Hp|[<-|[]]].
    + apply in_map_iff in Hp as [u [<- Hu]]. split; [apply ends_side, valid_edge, (trail_valid _ _ _ _ _ _ _ H u Hu)|apply ends_crossed, (Cl u Hu)].
    + split; [apply ends_side, Ot|apply ends_crossed, Ot].
  - intros p q Hpq. destruct (trail_next T r l e t' H Ht p q Hpq) as [u [Hu [-> Hq]]]. pose proof (trail_valid _ _ _ _ _ _ _ H u Hu) as Vu. destruct (step_cell T u Vu) as [A B]. destruct (step_other T u Vu) as [A' B'].
    destruct Hq as [->| ->]; (split; [assumption|exists (cell_of (zone_of u)); split; [apply ends_cell, Vu|assumption]]).
  - assert (Hb : begins (map ends l ++ [ends t']) (ends r)) by (exists (map ends l' ++ [ends t']); rewrite El; reflexivity). assert (Hf : finishes (map ends l ++ [ends t']) (ends t')) by (exists (map ends l); reflexivity).
    destruct b; [left; exists (ends r); auto|]. right. exists (ends r), (ends t'). split; [exact Hb|]. split; [exact Hf|]. destruct X as [X1 X2]. split; [|split].
    + rewrite <- (flip_flip r). apply outer_flip, outer_site; [apply edge_flip, valid_edge, V|exact X1].
    + apply outer_flip, outer_site; assumption.
    + unfold t'. rewrite <- same_spec, same_ends. intro S. apply same_key in S; [|apply valid_edge, V|exact Oe]. pose proof (trail_keys_out _ _ _ _ _ _ _ C H N X2) as D. rewrite El in D. cbn in D. inversion D as [|? ? D1 _]. apply D1. rewrite S. apply in_map, in_or_app. right. left. reflexivity.
Qed.

Lemma filter_count e x (f : site -> Z * Z) l : edge_ok x -> same_side (ends x) e -> (forall s, In s l -> edge_ok s /\ (f s = ends s \/ f s = ends (flip s))) -> length (filter (same_sideb e) (map f l)) = count_occ key_eq_dec (map key l) (key x).
Proof.
  intros Ox He Hl. assert (B : forall s, edge_ok s -> same_sideb e (ends s) = true <-> key s = key x).
  { intros s Os. rewrite <- (same_key s x Os Ox). destruct He as [->| ->]; rewrite !same_spec; unfold same_side; destruct (ends x), (ends s); cbn; split; intros [H|H]; injection H; intros; subst; auto. }
  induction l as [|s l IH]; [reflexivity|]. destruct (Hl s (or_introl eq_refl)) as [Os Fs]. assert (Bs : same_sideb e (f s) = same_sideb e (ends s)) by (destruct Fs as [->| ->]; [reflexivity|apply same_ends]).
  cbn [map filter count_occ]. rewrite Bs. specialize (B s Os). specialize (IH (fun t Ht => Hl t (or_intror Ht))). destruct (key_eq_dec (key s) (key x)) as [E|E]; destruct (same_sideb e (ends s)).
  - cbn [length]. rewrite IH. reflexivity.
  - exfalso. apply B in E. discriminate.
  - exfalso. apply E, B. reflexivity.
  - exact IH.
Qed.
Lemma w_visits T w e x : w_full imax jmax above T w -> edge_ok x -> same_side (ends x) e -> visits e (w_points w) = count_occ key_eq_dec (w_keys w) (key x).
Proof.
  destruct w as [[[r b] l] z]. intros [[C [H [L [N X]]]] V] Ox He. unfold L_Cntr9.w_points, w_keys, fkeys, visits. destruct (trail_first _ _ _ _ _ _ _ [] H L) as [l' [El _]]. destruct (trail_end _ _ _ _ _ _ _ H L) as [Oz _].
  assert (Ol : forall s, In s l -> edge_ok s) by (intros s Hs; apply valid_edge, (trail_valid _ _ _ _ _ _ _ H s Hs)).
  assert (R : repeats (map ends l ++ [ends (if b then r else flip z)]) = b).
  { rewrite El. cbn [map app repeats]. rewrite last_last. destruct b; [rewrite !Z.eqb_refl; reflexivity|]. destruct ((fst (ends r) =? fst (ends (flip z))) && (snd (ends r) =? snd (ends (flip z))))%bool eqn:Q; [|reflexivity]. exfalso.
    apply andb_true_iff in Q as [Q1 Q2]. apply Z.eqb_eq in Q1, Q2. destruct X as [X1 X2]. assert (S : same_sideb (ends r) (ends z) = true) by (rewrite <- same_ends; apply same_spec; left; destruct (ends r), (ends (flip z)); cbn in *; congruence). apply same_key in S; [|apply valid_edge, V|exact Oz]. pose proof (trail_keys_out _ _ _ _ _ _ _ C H N X2) as D. rewrite El in D. cbn in D. inversion D as [|? ? D1 _]. apply D1. rewrite S. apply in_map, in_or_app. right. left. reflexivity. }
  rewrite R. destruct b.
  - rewrite removelast_last. apply filter_count; [exact Ox|exact He|]. intros s Hs. split; [apply Ol, Hs|left; reflexivity].
  - rewrite filter_app, app_length, map_app, count_occ_app. f_equal; [apply filter_count; [exact Ox|exact He|]; intros s Hs; split; [apply Ol, Hs|left; reflexivity]|].
    change [ends (flip z)] with (map (fun s => ends (flip s)) [z]). apply filter_count; [exact Ox|exact He|]. intros s [<-|[]]. split; [exact Oz|right; reflexivity].
Qed.
Lemma w_total T W e x : Forall (w_full imax jmax above T) W -> edge_ok x -> same_side (ends x) e -> total_visits e (map w_points W) = count_occ key_eq_dec (concat (map w_keys W)) (key x).
Proof. intros F Ox He. induction F as [|w W Fw F IH]; [reflexivity|]. cbn. rewrite count_occ_app, (w_visits T w e x Fw Ox He), <- IH. reflexivity. Qed.

Lemma cell_unique q s f T : side_of_cell q (ends s) -> valid s -> f = ends (step T s) \/ f = ends (flip (step T s)) -> side_of_cell q f -> q = cell_of (zone_of s).
Proof.
  intros Hq V Hf Hq'. assert (Hs : side_of_cell q (ends (step T s))) by (destruct Hf as [->| ->]; [exact Hq'|]; apply swap_cell in Hq'; rewrite <- ends_flip, flip_flip in Hq'; exact Hq').
  clear Hf Hq' f. unfold L_Cntr1.step in Hs. destruct Hq as [_ [_ Hq]]. destruct Hs as [_ [_ Hs]]. revert Hq Hs. destruct q as [i j]. unfold S_Cntr.point_of_cell, cell_of, L_Cntr1.valid, L_Cntr2.ends, L_Cntr2.flat in *. cbn [fst snd] in *.
  destruct (way high T s) as [[]|]; destruct s as [x y []]; cbn [go go_right go_left go_on zone_of fst snd sx sy sd pt0 pt1] in *; intros A B;
    repeat match goal with H : context [col_of imax (?x + ?y * imax)] |- _ => let H1 := fresh in let H2 := fresh in destruct (colrow x y ltac:(lia)) as [H1 H2]; rewrite H1, H2 in *; clear H1 H2 end; f_equal; lia.
Qed.
Lemma w_cuts T (t : Z * Z -> bool) w : (forall c, is_cell imax jmax c -> t c = T (fst c + 1, snd c + 1)) -> w_full imax jmax above T w -> cuts_off imax jmax above t (w_points w).
Proof.
  intro Et. destruct w as [[[r b] l] e]. intros [[C [H [L [N X]]]] V]. unfold L_Cntr9.w_points. set (t' := if b then r else flip e).
  assert (Ht : t' = e \/ t' = flip e) by (unfold t'; destruct b; [left; symmetry; exact X|right; reflexivity]). destruct (trail_col _ _ _ _ _ _ _ H C) as [_ [_ Cl]].
  intros p f q Hn Hp Hf Am. destruct (trail_next T r l e t' H Ht p f Hn) as [s [Hs [-> Hq]]]. pose proof (trail_valid _ _ _ _ _ _ _ H s Hs) as Vs. destruct (Cl s Hs) as [Cs _]. pose proof (cell_unique q s f T Hp Vs Hq Hf) as ->.
  destruct Hp as [Ic _]. rewrite (Et _ Ic). assert (Ez : (fst (cell_of (zone_of s)) + 1, snd (cell_of (zone_of s)) + 1) = zone_of s) by (unfold cell_of; destruct (zone_of s); cbn; f_equal; lia). rewrite Ez.
  assert (Hw : way high T s = Some (xorb (negb (high (pt0 s))) (T (zone_of s)))).
  { revert Am. clear - Cs. unfold ambiguous, corner, cell_of, L_Cntr1.cut, way in *. unfold L_Cntr2.high, L_Cntr2.flat in *. destruct s as [x y []]; cbn [fst snd sx sy sd zone_of pt0 pt1 pt2 pt3] in *; intro Am.
    all: repeat match type of Am with context [?u - 1 + 0 + ?v * imax] => replace (u - 1 + 0) with (u - 1) in Am by lia end.
    all: repeat match type of Am with context [?u - 1 + 1] => replace (u - 1 + 1) with u in Am by lia end.
    all: repeat match type of Am with context [?u + 1 - 1] => replace (u + 1 - 1) with u in Am by lia end.
    all: repeat match type of Am with context [?u - 1 + 0] => replace (u - 1 + 0) with (u - 1) in Am by lia end.
    all: repeat match type of Am with context [?u + 0] => replace (u + 0) with u in Am by lia end.
    all: destruct Am as [A1 [A2 A3]]; repeat match goal with |- context [above ?k] => destruct (above k) eqn:? end; cbn in *; try congruence. }
  assert (Shared : exists p, (p = fst (ends s) \/ p = snd (ends s)) /\ (p = fst (ends (step T s)) \/ p = snd (ends (step T s))) /\ above p = negb (T (zone_of s))).
  { unfold L_Cntr1.cut in Cs. unfold L_Cntr1.step. rewrite Hw. destruct (xorb (negb (high (pt0 s))) (T (zone_of s))) eqn:Xo.
    - exists (flat (pt1 s)). split; [right; reflexivity|]. split; [|change (above (flat (pt1 s))) with (high (pt1 s)); destruct (high (pt1 s)), (T (zone_of s)), (high (pt0 s)); cbn in *; congruence].
      unfold L_Cntr2.ends, L_Cntr2.flat. destruct s as [x y []]; cbn [go go_right sx sy sd fst snd pt0 pt1]; zs; auto.
    - exists (flat (pt0 s)). split; [left; reflexivity|]. split; [|change (above (flat (pt0 s))) with (high (pt0 s)); destruct (high (pt1 s)), (T (zone_of s)), (high (pt0 s)); cbn in *; congruence].
      unfold L_Cntr2.ends, L_Cntr2.flat. destruct s as [x y []]; cbn [go go_left sx sy sd fst snd pt0 pt1]; zs; auto. }
  destruct Shared as [k [K1 [K2 K3]]]. exists k. split; [exact K1|]. split; [|exact K3]. destruct Hq as [->| ->]; [exact K2|]. rewrite ends_flip. cbn [fst snd]. tauto.
Qed.
End Sides.

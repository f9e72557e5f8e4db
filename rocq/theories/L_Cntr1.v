(** Geometry of the mesh: directed edges, crossing a zone, curves. *)
From Coq Require Import Lia.
From Verif Require Import M_Base.

Inductive dir := Le | Ri | Up | Dn.
(** An edge with the side of the zone to be crossed: Le and Ri are i-edges, from (x, y - 1) to (x, y), Up and Dn are j-edges, from (x - 1, y) to (x, y). *)
Record site := mkS { sx : Z; sy : Z; sd : dir }.
Definition opp (d : dir) : dir := match d with Le => Ri | Ri => Le | Up => Dn | Dn => Up end.
Definition flip (s : site) : site := mkS (sx s) (sy s) (opp (sd s)).
Definition isj (d : dir) : bool := match d with Le | Ri => false | _ => true end.
Definition key (s : site) : bool * Z * Z := (isj (sd s), sx s, sy s).
Definition pt0 (s : site) : Z * Z := match sd s with Le => (sx s, sy s - 1) | Ri => (sx s, sy s) | Up => (sx s - 1, sy s) | Dn => (sx s, sy s) end.
Definition pt1 (s : site) : Z * Z := match sd s with Le => (sx s, sy s) | Ri => (sx s, sy s - 1) | Up => (sx s, sy s) | Dn => (sx s - 1, sy s) end.
Definition pt2 (s : site) : Z * Z := match sd s with Le => (sx s - 1, sy s) | Ri => (sx s + 1, sy s - 1) | Up => (sx s, sy s + 1) | Dn => (sx s - 1, sy s - 1) end.
Definition pt3 (s : site) : Z * Z := match sd s with Le => (sx s - 1, sy s - 1) | Ri => (sx s + 1, sy s) | Up => (sx s - 1, sy s + 1) | Dn => (sx s, sy s - 1) end.
Definition zone_of (s : site) : Z * Z := match sd s with Le => (sx s, sy s) | Ri => (sx s + 1, sy s) | Up => (sx s, sy s + 1) | Dn => (sx s, sy s) end.
Definition go_right (s : site) : site := match sd s with Le => mkS (sx s) (sy s) Up | Ri => mkS (sx s + 1) (sy s - 1) Dn | Up => mkS (sx s) (sy s + 1) Ri | Dn => mkS (sx s - 1) (sy s) Le end.
Definition go_left (s : site) : site := match sd s with Le => mkS (sx s) (sy s - 1) Dn | Ri => mkS (sx s + 1) (sy s) Up | Up => mkS (sx s - 1) (sy s + 1) Le | Dn => mkS (sx s) (sy s) Ri end.
Definition go_on (s : site) : site := match sd s with Le => mkS (sx s - 1) (sy s) Le | Ri => mkS (sx s + 1) (sy s) Ri | Up => mkS (sx s) (sy s + 1) Up | Dn => mkS (sx s) (sy s - 1) Dn end.
Lemma flip_flip s : flip (flip s) = s. Proof. destruct s as [x y []]; reflexivity. Qed.
Lemma flip_inj s t : flip s = flip t -> s = t. Proof. intro H. rewrite <- (flip_flip s), H. apply flip_flip. Qed.
Lemma key_flip s : key (flip s) = key s. Proof. destruct s as [x y []]; reflexivity. Qed.
Lemma key_eq s t : key s = key t -> t = s \/ t = flip s.
Proof. destruct s as [x y d], t as [u v e]. unfold key, flip. cbn. intro H. injection H as A -> ->. destruct d, e; cbn in *; try discriminate; auto. Qed.
Lemma flip_ne s : flip s <> s. Proof. destruct s as [x y []]; discriminate. Qed.
Definition site_eq_dec (s t : site) : {s = t} + {s <> t}. Proof. repeat decide equality. Defined.
Definition key_eq_dec (s t : bool * Z * Z) : {s = t} + {s <> t}. Proof. repeat decide equality. Defined.
Lemma pt_flip s : pt0 (flip s) = pt1 s /\ pt1 (flip s) = pt0 s. Proof. destruct s as [x y []]; split; reflexivity. Qed.

Ltac zs := repeat match goal with |- context [?x + 1 - 1] => replace (x + 1 - 1) with x by lia | |- context [?x - 1 + 1] => replace (x - 1 + 1) with x by lia end.

Section Mesh.
Variables imax jmax : Z.
Definition edge_ok (s : site) : Prop := if isj (sd s) then 1 <= sx s < imax /\ 0 <= sy s < jmax else 0 <= sx s < imax /\ 1 <= sy s < jmax.
Definition valid (s : site) : Prop := 1 <= fst (zone_of s) < imax /\ 1 <= snd (zone_of s) < jmax.
Definition validb (s : site) : bool := ((1 <=? fst (zone_of s)) && (fst (zone_of s) <? imax) && (1 <=? snd (zone_of s)) && (snd (zone_of s) <? jmax))%bool.
Lemma validb_spec s : validb s = true <-> valid s.
Proof. unfold validb, valid. rewrite !andb_true_iff, !Z.leb_le, !Z.ltb_lt. tauto. Qed.
Lemma valid_edge s : valid s -> edge_ok s.
Proof. destruct s as [x y []]; unfold valid, edge_ok; cbn; lia. Qed.
Lemma edge_flip s : edge_ok s -> edge_ok (flip s). Proof. destruct s as [x y []]; exact (fun H => H). Qed.
Lemma valid_one s : 2 <= imax -> 2 <= jmax -> edge_ok s -> valid s \/ valid (flip s).
Proof. destruct s as [x y []]; unfold valid, edge_ok; cbn; lia. Qed.
Definition go (w : option bool) (s : site) : site := match w with Some true => go_right s | Some false => go_left s | None => go_on s end.
Lemma go_ok w s : valid s -> edge_ok (go w s) /\ valid (flip (go w s)) /\ zone_of (flip (go w s)) = zone_of s.
Proof. destruct s as [x y []], w as [[]|]; unfold valid, edge_ok, go, flip, zone_of; cbn; intro H; (split; [lia|]); (split; [lia|]); f_equal; lia. Qed.
(** All edges of the mesh. *)
Definition all_keys : list (bool * Z * Z) := flat_map (fun b => flat_map (fun y => map (fun x => (b, Z.of_nat x, Z.of_nat y)) (seq 0 (Z.to_nat imax))) (seq 0 (Z.to_nat jmax))) [false; true].
Lemma all_keys_in s : edge_ok s -> In (key s) all_keys.
Proof.
  intro H. assert (R : 0 <= sx s < imax /\ 0 <= sy s < jmax) by (destruct s as [x y []]; unfold edge_ok in H; cbn in *; lia). unfold all_keys. apply in_flat_map. exists (isj (sd s)). split; [destruct (isj (sd s)); cbn; auto|].
  apply in_flat_map. exists (Z.to_nat (sy s)). split; [apply in_seq; lia|]. apply in_map_iff. exists (Z.to_nat (sx s)). split; [unfold key; rewrite !Z2Nat.id by lia; reflexivity|apply in_seq; lia].
Qed.
Lemma all_keys_length : 0 <= imax -> 0 <= jmax -> Z.of_nat (length all_keys) = 2 * (imax * jmax).
Proof.
  intros Hi Hj. unfold all_keys. cbn [flat_map]. rewrite app_nil_r, app_length.
  assert (L : forall (b : bool) n m, length (flat_map (fun y => map (fun x => (b, Z.of_nat x, Z.of_nat y)) (seq 0 (Z.to_nat imax))) (seq m n)) = (n * Z.to_nat imax)%nat).
  { intros b n. induction n as [|n IH]; intro m; [reflexivity|]. cbn [seq flat_map]. rewrite app_length, map_length, seq_length, IH. reflexivity. }
  rewrite !L. nia.
Qed.
Variable a : Z * Z -> bool.
Variable T : Z * Z -> bool.
Definition cut (s : site) : Prop := a (pt0 s) = negb (a (pt1 s)).
Definition col (s : site) : bool := a (pt0 s).
Definition way (s : site) : option bool :=
  let z0 := a (pt0 s) in let z1 := negb z0 in let z2 := a (pt2 s) in let z3 := a (pt3 s) in
  if eqb z0 z2 then if eqb z1 z3 then Some (xorb z1 (T (zone_of s))) else Some true else if eqb z1 z3 then Some false else None.
Definition step (s : site) : site := go (way s) s.
Lemma cut_flip s : cut s -> cut (flip s).
Proof. unfold cut. destruct (pt_flip s) as [-> ->]. intros ->. rewrite negb_involutive. reflexivity. Qed.
Lemma col_flip s : cut s -> col (flip s) = negb (col s).
Proof. unfold cut, col. destruct (pt_flip s) as [-> _]. intros ->. rewrite negb_involutive. reflexivity. Qed.
Lemma step_ok s : valid s -> edge_ok (step s) /\ valid (flip (step s)) /\ zone_of (flip (step s)) = zone_of s. Proof. apply go_ok. Qed.
Lemma step_col s : cut s -> cut (step s) /\ col (step s) = col s.
Proof.
  intro C. revert C. unfold step, way, cut, col. destruct s as [x y []]; cbn; zs; repeat match goal with |- context [a (?u, ?v)] => destruct (a (u, v)) eqn:? end;
    cbn; intro C; try discriminate; try (destruct (T _)); cbn; zs; repeat match goal with H : a _ = _ |- _ => rewrite ?H; clear H end; cbn; auto.
Qed.
Lemma step_back s : cut s -> step (flip (step s)) = flip s.
Proof.
  intro C. destruct (step_col s C) as [_ _]. revert C. unfold step, way, cut, flip. destruct s as [x y []]; cbn; zs;
    repeat match goal with |- context [a (?u, ?v)] => destruct (a (u, v)) eqn:? end;
    cbn; intro C; try discriminate; try (destruct (T _) eqn:?); cbn; zs; repeat match goal with H : a _ = _ |- _ => rewrite !H end; cbn; zs; try reflexivity;
    repeat match goal with H : T _ = _ |- _ => rewrite ?H end; cbn; zs; try reflexivity.
Qed.
Lemma step_inj s t : cut s -> cut t -> step s = step t -> s = t.
Proof. intros Hs Ht E. apply flip_inj. rewrite <- (step_back s Hs), <- (step_back t Ht), E. reflexivity. Qed.

(** A piece of a curve: the sites crossed, and where it arrives. *)
Inductive trail : site -> list site -> site -> Prop :=
| trail_nil s : trail s [] s
| trail_cons s l t : valid s -> trail (step s) l t -> trail s (s :: l) t.
Lemma trail_app s l t l' u : trail s l t -> trail t l' u -> trail s (l ++ l') u.
Proof. induction 1 as [s|s l t V H IH]; intro H'; [exact H'|]. cbn. constructor; auto. Qed.
Lemma trail_snoc s l t : trail s l t -> valid t -> trail s (l ++ [t]) (step t).
Proof. intros H V. apply (trail_app s l t _ _ H). constructor; [exact V|constructor]. Qed.
Lemma trail_split l : forall s l' t, trail s (l ++ l') t -> exists u, trail s l u /\ trail u l' t.
Proof.
  induction l as [|x l IH]; intros s l' t H; [exists s; split; [constructor|exact H]|]. cbn in H. inversion H as [|? ? ? V H']; subst. apply IH in H' as [u [A B]]. exists u. split; [constructor; assumption|exact B].
Qed.
Lemma trail_unsnoc s l x t : trail s (l ++ [x]) t -> trail s l x /\ valid x /\ t = step x.
Proof. intro H. apply trail_split in H as [u [A B]]. inversion B as [|? ? ? V H']; subst. inversion H'; subst. auto. Qed.
Lemma trail_head s x l t : trail s (x :: l) t -> x = s. Proof. inversion 1; reflexivity. Qed.
Lemma trail_first s l t x : trail s l t -> l <> [] -> exists l', l = s :: l' /\ nth_error (s :: x) 0 = Some s.
Proof. intros H N. inversion H; subst; [congruence|]. eexists. split; reflexivity. Qed.
Lemma trail_valid s l t : trail s l t -> forall x, In x l -> valid x.
Proof. induction 1 as [s|s l t V H IH]; intros x Hx; [destruct Hx|]. destruct Hx as [<-|Hx]; auto. Qed.
Lemma trail_col s l t : trail s l t -> cut s -> cut t /\ col t = col s /\ forall x, In x l -> cut x /\ col x = col s.
Proof.
  induction 1 as [s|s l t V H IH]; intro C; [split; [exact C|]; split; [reflexivity|intros x []]|]. destruct (step_col s C) as [C' E]. destruct (IH C') as [A [B D]]. split; [exact A|]. split; [congruence|].
  intros x [<-|Hx]; [auto|]. destruct (D x Hx). split; [assumption|congruence].
Qed.
Lemma trail_cut s l t : trail s l t -> cut s -> cut t. Proof. intros H C. destruct (trail_col s l t H C) as [A _]. exact A. Qed.
Lemma trail_end s l t : trail s l t -> l <> [] -> edge_ok t /\ valid (flip t).
Proof.
  intros H N. destruct (@exists_last _ l N) as [l' [x ->]]. apply trail_unsnoc in H as [_ [V ->]]. destruct (step_ok x V) as [A [B _]]. auto.
Qed.
Lemma trail_edge s l t : trail s l t -> edge_ok s -> edge_ok t.
Proof. intros H E. destruct l as [|x l]; [inversion H; subst; exact E|]. apply (trail_end s (x :: l) t H). discriminate. Qed.
Lemma trail_back s l : forall t, cut s -> trail s l t -> trail (flip t) (map flip (rev (tl (l ++ [t])))) (flip s).
Proof.
  induction l as [|x l IH] using rev_ind; intros t C H; [inversion H; subst; constructor|]. apply trail_unsnoc in H as [H [V ->]]. pose proof (IH x C H) as IH'.
  assert (C' : cut x) by (exact (trail_cut s l x H C)). destruct (step_ok x V) as [_ [V' _]].
  replace (rev (tl ((l ++ [x]) ++ [step x]))) with (step x :: rev (tl (l ++ [x]))).
  - cbn [map]. constructor; [exact V'|]. rewrite step_back by exact C'. exact IH'.
  - destruct l as [|y l]; [reflexivity|]. cbn [app tl]. rewrite (rev_app_distr (l ++ [x])). reflexivity.
Qed.
Lemma trail_nth s l t : trail s l t -> forall k x y, nth_error (l ++ [t]) k = Some x -> nth_error (l ++ [t]) (S k) = Some y -> In x l /\ y = step x.
Proof.
  induction 1 as [s|s l t V H IH]; intros k x y Hx Hy; [destruct k as [|[|k]]; discriminate|]. cbn [app] in Hx, Hy. destruct k as [|k].
  - cbn in Hx. injection Hx as <-. split; [left; reflexivity|]. destruct l as [|z l].
    + cbn in Hy. inversion H; subst. congruence.
    + inversion H; subst. cbn in Hy. congruence.
  - cbn [nth_error] in Hx, Hy. destruct (IH k x y Hx Hy) as [A B]. split; [right; exact A|exact B].
Qed.
Lemma trail_nodup s l t : cut s -> trail s l t -> ~ In s (tl l) -> NoDup l.
Proof.
  intros C H N. apply NoDup_nth_error. assert (Q : forall i j, (i < j)%nat -> (j < length l)%nat -> nth_error l i = nth_error l j -> False).
  { induction i as [|i IH]; intros j Hij Hj E.
    - destruct l as [|x l']; [cbn in Hj; lia|]. pose proof (trail_head _ _ _ _ H) as ->. cbn in E. destruct j as [|j]; [lia|]. cbn in E. symmetry in E. apply nth_error_In in E. exact (N E).
    - destruct j as [|j]; [lia|]. destruct (nth_error l i) as [x|] eqn:Ex; [|apply nth_error_None in Ex; lia]. destruct (nth_error l j) as [y|] eqn:Ey; [|apply nth_error_None in Ey; lia].
      destruct (nth_error l (S j)) as [z|] eqn:Ez; [|apply nth_error_None in Ez; lia].
      assert (App : forall k w, nth_error l k = Some w -> nth_error (l ++ [t]) k = Some w) by (intros k w Hk; rewrite nth_error_app1; [exact Hk|apply nth_error_Some; congruence]).
      destruct (trail_nth s l t H i x z (App _ _ Ex) (App _ _ E)) as [Ix E1]. destruct (trail_nth s l t H j y z (App _ _ Ey) (App _ _ Ez)) as [Iy E2].
      destruct (trail_col s l t H C) as [_ [_ Cl]]. assert (Exy : x = y); [|apply (IH j); [lia|lia|congruence]]. apply step_inj; [apply Cl, Ix|apply Cl, Iy|congruence]. }
  intros i j Hi E. destruct (Nat.lt_trichotomy i j) as [L|[L|L]]; [|exact L|].
  - exfalso. apply (Q i j L); [|exact E]. apply nth_error_Some. rewrite <- E. apply nth_error_Some. exact Hi.
  - exfalso. apply (Q j i L Hi). symmetry. exact E.
Qed.
Lemma nodup_keys l b : (forall x, In x l -> cut x /\ col x = b) -> NoDup l -> NoDup (map key l).
Proof.
  intros H N. induction N as [|x l Hx N IH]; [constructor|]. cbn. constructor; [|apply IH; intros y Hy; apply H; right; exact Hy].
  intro I. apply in_map_iff in I as [y [E Hy]]. destruct (H x ltac:(left; reflexivity)) as [Cx Bx]. destruct (H y ltac:(right; exact Hy)) as [Cy By]. destruct (key_eq x y (eq_sym E)) as [->| ->]; [contradiction|].
  rewrite col_flip in By by exact Cx. rewrite Bx in By. destruct b; discriminate.
Qed.
Lemma trail_keys s l t : cut s -> trail s l t -> ~ In s (tl l) -> NoDup (map key l).
Proof. intros C H N. destruct (trail_col s l t H C) as [_ [_ Cl]]. exact (nodup_keys l (col s) Cl (trail_nodup s l t C H N)). Qed.
Lemma trail_keys_out s l t : cut s -> trail s l t -> ~ In s (tl l) -> ~ valid t -> NoDup (map key (l ++ [t])).
Proof.
  intros C H N V. destruct (trail_col s l t H C) as [Ct [Bt Cl]]. apply (nodup_keys _ (col s)).
  - intros x Hx. apply in_app_or in Hx as [Hx|[<-|[]]]; auto.
  - pose proof (trail_nodup s l t C H N) as D. apply NoDup_rev in D. rewrite <- (rev_involutive (l ++ [t])). apply NoDup_rev. rewrite rev_app_distr. cbn. constructor; [|exact D]. rewrite <- in_rev. intro I. exact (V (trail_valid s l t H t I)).
Qed.
Lemma trail_prefix s l : forall l' t t', trail s l t -> trail s l' t' -> (length l <= length l')%nat -> exists l'', l' = l ++ l'' /\ trail t l'' t'.
Proof.
  revert s. induction l as [|x l IH]; intros s l' t t' H H' L.
  - inversion H; subst. exists l'. auto.
  - destruct l' as [|y l']; [cbn in L; lia|]. pose proof (trail_head _ _ _ _ H) as ->. pose proof (trail_head _ _ _ _ H') as ->. inversion H; subst. inversion H'; subst. destruct (IH (step s) l' t t') as [l'' [-> E]]; [assumption..|cbn in L; lia|]. exists l''. auto.
Qed.
(** A set of edges that the curves do not leave. *)
Definition saturated (K : list (bool * Z * Z)) : Prop := forall x, cut x -> valid x -> In (key x) K -> In (key (step x)) K.
Lemma saturated_trail K s l t : saturated K -> cut s -> trail s l t -> In (key s) K -> (forall x, In x l -> In (key x) K) /\ In (key t) K.
Proof.
  intros S C H. revert C. induction H as [s|s l t V H IH]; intros C I; [split; [intros x []|exact I]|]. destruct (step_col s C) as [C' _]. destruct (IH C' (S s C V I)) as [A B]. split; [|exact B]. intros x [<-|Hx]; auto.
Qed.
Lemma saturated_trail_back K s l t x : saturated K -> cut s -> trail s l t -> In x (l ++ [t]) -> In (key x) K -> In (key s) K.
Proof.
  intros S C H Hx I. apply in_split in Hx as [l1 [l2 E]]. assert (P : trail s l1 x).
  { destruct l2 as [|y l2] using rev_ind; [apply app_inj_tail in E as [-> ->]; exact H|]. clear IHl2. rewrite app_comm_cons, app_assoc in E. apply app_inj_tail in E as [-> ->]. apply trail_split in H as [u [A B]]. inversion B; subst. exact A. }
  destruct (trail_col s l1 x P C) as [Cx _]. pose proof (trail_back s l1 x C P) as Bk. destruct (saturated_trail K _ _ _ S (cut_flip x Cx) Bk) as [_ R]; [rewrite key_flip; exact I|]. rewrite key_flip in R. exact R.
Qed.
Lemma saturated_open s l t : cut s -> trail s l t -> ~ valid (flip s) -> ~ valid t -> saturated (map key (l ++ [t])).
Proof.
  intros C H N V x Cx Vx I. apply in_map_iff in I as [y [E Hy]]. apply In_nth_error in Hy as [k Hk]. destruct (key_eq y x E) as [->| ->].
  - destruct (nth_error (l ++ [t]) (S k)) as [z|] eqn:Hz.
    + destruct (trail_nth s l t H k y z Hk Hz) as [_ ->]. apply in_map, (nth_error_In _ _ Hz).
    + exfalso. apply nth_error_None in Hz. rewrite app_length in Hz. cbn in Hz. assert (k < length (l ++ [t]))%nat by (apply nth_error_Some; congruence). rewrite app_length in H0. cbn in H0. rewrite nth_error_app2 in Hk by lia. replace (k - length l)%nat with 0%nat in Hk by lia. cbn in Hk. injection Hk as ->. exact (V Vx).
  - destruct k as [|k].
    + exfalso. destruct l as [|z l]; cbn in Hk; injection Hk as <-; [inversion H; subst; exact (N Vx)|]. apply trail_head in H. subst. exact (N Vx).
    + destruct (nth_error (l ++ [t]) k) as [w|] eqn:Hw; [|apply nth_error_None in Hw; assert (S k < length (l ++ [t]))%nat by (apply nth_error_Some; congruence); lia].
      destruct (trail_nth s l t H k w y Hw Hk) as [Iw ->]. destruct (trail_col s l t H C) as [_ [_ Cl]]. rewrite step_back by (apply Cl, Iw). rewrite key_flip. apply in_map, in_or_app. left. exact Iw.
Qed.
Lemma saturated_closed s l : cut s -> trail s l s -> l <> [] -> saturated (map key l).
Proof.
  intros C H N x Cx Vx I. apply in_map_iff in I as [y [E Hy]]. assert (Hs : In s l) by (destruct l as [|z l]; [congruence|]; apply trail_head in H; subst; left; reflexivity).
  assert (W : forall w, In w (l ++ [s]) -> In (key w) (map key l)) by (intros w Hw; apply in_app_or in Hw as [Hw|[<-|[]]]; apply in_map; assumption).
  apply In_nth_error in Hy as [k Hk]. assert (Lk : (k < length l)%nat) by (apply nth_error_Some; congruence).
  assert (Hk' : nth_error (l ++ [s]) k = Some y) by (rewrite nth_error_app1; assumption).
  destruct (key_eq y x E) as [->| ->].
  - destruct (nth_error (l ++ [s]) (S k)) as [z|] eqn:Hz; [|apply nth_error_None in Hz; rewrite app_length in Hz; cbn in Hz; lia].
    destruct (trail_nth s l s H k y z Hk' Hz) as [_ ->]. apply W, (nth_error_In _ _ Hz).
  - destruct k as [|k].
    + destruct l as [|z l]; [congruence|]. cbn in Hk. injection Hk as ->. pose proof (trail_head _ _ _ _ H) as ->.
      destruct (@exists_last _ (s :: l) N) as [l' [w Ew]]. rewrite Ew in H. apply trail_unsnoc in H as [Hw [Vw Es]].
      assert (Cw : cut w) by (exact (trail_cut s l' w Hw C)). rewrite Es at 1. rewrite step_back by exact Cw. rewrite key_flip. apply in_map. rewrite Ew. apply in_or_app. right. left. reflexivity.
    + destruct (nth_error (l ++ [s]) k) as [w|] eqn:Hw; [|apply nth_error_None in Hw; rewrite app_length in Hw; cbn in Hw; lia].
      destruct (trail_nth s l s H k w y Hw Hk') as [Iw ->]. destruct (trail_col s l s H C) as [_ [_ Cl]]. rewrite step_back by (apply Cl, Iw). rewrite key_flip. apply in_map, Iw.
Qed.
Lemma trail_bound s l t : cut s -> trail s l t -> ~ In s (tl l) -> (length l <= length all_keys)%nat.
Proof.
  intros C H N. rewrite <- (map_length key). apply NoDup_incl_length; [exact (trail_keys s l t C H N)|]. intros k Hk. apply in_map_iff in Hk as [x [<- Hx]]. apply all_keys_in, valid_edge, (trail_valid s l t H x Hx).
Qed.
(** Every curve can be followed to the end: to the boundary, or back to its start. *)
Lemma trail_full s : cut s -> valid s -> exists l t, trail s l t /\ l <> [] /\ ~ In s (tl l) /\ (t = s \/ ~ valid t).
Proof.
  intros C V. assert (Q : forall n l t, trail s l t -> l <> [] -> ~ In s (tl l) -> (length all_keys <= n + length l)%nat -> exists l t, trail s l t /\ l <> [] /\ ~ In s (tl l) /\ (t = s \/ ~ valid t)).
  { induction n as [|n IH]; intros l t H L N B; (destruct (site_eq_dec t s) as [->|D]; [exists l, s; auto|]); (destruct (validb t) eqn:Vt; [apply validb_spec in Vt|exists l, t; repeat split; auto; right; intro X; apply validb_spec in X; congruence]);
    pose proof (trail_snoc s l t H Vt) as H'; (assert (N' : ~ In s (tl (l ++ [t]))) by (destruct l as [|z l]; [congruence|]; cbn in *; intro X; apply in_app_or in X as [X|[X|[]]]; [exact (N X)|congruence])).
    - exfalso. pose proof (trail_bound _ _ _ C H' N'). rewrite app_length in H0. cbn [length] in H0. lia.
    - apply (IH (l ++ [t]) (step t) H'); [destruct l; discriminate|exact N'|rewrite app_length; cbn [length]; lia]. }
  apply (Q (length all_keys) [s] (step s)); [constructor; [exact V|constructor]|discriminate|intros []|lia].
Qed.
End Mesh.

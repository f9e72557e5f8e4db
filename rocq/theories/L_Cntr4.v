(** Which edges have been passed: the invariant of the first pass, for fixed decisions at the saddles *)
From Coq Require Import Lia.
From Verif Require Import M_Base L_Cntr1.

Lemma nodup_app {A} (l l' : list A) : NoDup l -> NoDup l' -> (forall q, In q l' -> ~ In q l) -> NoDup (l ++ l').
Proof.
  intros N N'. induction N as [|q l Hq N IH]; intro D; [exact N'|]. cbn. constructor; [|apply IH; intros q' Hq' I; exact (D q' Hq' (or_intror I))]. intro I. apply in_app_or in I as [I|I]; [contradiction|]. exact (D q I (or_introl eq_refl)).
Qed.
Section Curves.
Variables imax jmax : Z.
Variable a : Z * Z -> bool.
Variable T : Z * Z -> bool.
Notation edge_ok := (edge_ok imax jmax).
Notation valid := (valid imax jmax).
Notation validb := (validb imax jmax).
Notation cut := (cut a).
Notation col := (col a).
Notation step := (step a T).
Notation trail := (trail imax jmax a T).
Notation saturated := (saturated imax jmax a T).
Notation ekey := (bool * Z * Z)%type.

Definition closedF (D : list ekey) : Prop := forall x, cut x -> col x = true -> valid x -> In (key x) D -> In (key (step x)) D.
Definition closedB (opn : ekey -> Prop) (D : list ekey) : Prop := forall x, cut x -> col x = false -> valid x -> In (key x) D -> ~ opn (key x) -> In (key (step x)) D.
Lemma valid_dec s : valid s \/ ~ valid s.
Proof. destruct (validb s) eqn:E; [left; apply validb_spec, E|right; intro V; apply validb_spec in V; congruence]. Qed.
Lemma fresh_path opn D s0 : closedF D -> closedB opn D -> cut s0 -> ~ In (key s0) D -> forall l e, trail s0 l e -> (forall x, In x (tl l) -> ~ opn (key x)) ->
  (forall y, In y l -> ~ In (key y) D) /\ (~ opn (key e) \/ col s0 = false -> ~ In (key e) D).
Proof.
  intros F B C N. induction l as [|x l IH] using rev_ind; intros e H O.
  - inversion H; subst. split; [intros y []|intros _; exact N].
  - apply trail_unsnoc in H as [H [V ->]]. destruct (IH x H) as [A1 A2]; [intros y Hy; apply O; destruct l; [destruct Hy|]; cbn; apply in_or_app; left; exact Hy|].
    destruct (trail_col _ _ _ _ _ _ _ H C) as [Cx [Bx _]].
    assert (Nx : ~ In (key x) D) by (destruct l as [|z l]; [inversion H; subst; exact N|]; apply A2; left; apply O; cbn; apply in_or_app; right; left; reflexivity).
    split; [intros y Hy; apply in_app_or in Hy as [Hy|[<-|[]]]; auto|]. intros Q I. apply Nx. destruct (step_col a T x Cx) as [Cs Bs]. destruct (step_ok imax jmax a T x V) as [_ [Vf _]].
    rewrite <- (key_flip x), <- (step_back a T x Cx). destruct (col s0) eqn:B0.
    + apply B; [apply cut_flip, Cs|rewrite col_flip, Bs, Bx by exact Cs; reflexivity|exact Vf|rewrite key_flip; exact I|]. rewrite key_flip. destruct Q; [assumption|discriminate].
    + apply F; [apply cut_flip, Cs|rewrite col_flip, Bs, Bx by exact Cs; reflexivity|exact Vf|rewrite key_flip; exact I].
Qed.
Lemma closedF_trail D s l t : closedF D -> cut s -> col s = true -> trail s l t -> In (key s) D -> (forall x, In x l -> In (key x) D) /\ In (key t) D.
Proof.
  intros F C B H. revert C B. induction H as [s|s l t V H IH]; intros C B I; [split; [intros x []|exact I]|]. destruct (step_col a T s C) as [C' B']. destruct (IH C' ltac:(congruence) (F s C B V I)) as [P Q]. split; [|exact Q]. intros x [<-|Hx]; auto.
Qed.
(** A whole curve: closed (b) or from boundary to boundary *)
Definition full (r : site) (b : bool) (l : list site) (e : site) : Prop := cut r /\ trail r l e /\ l <> [] /\ ~ In r (tl l) /\ (if b then e = r else ~ valid (flip r) /\ ~ valid e).
Definition fkeys (b : bool) (l : list site) (e : site) : list ekey := if b then map key l else map key (l ++ [e]).
Lemma full_sat r b l e : full r b l e -> saturated (fkeys b l e).
Proof. intros [C [H [L [N E]]]]. destruct b; cbn. - subst e. exact (saturated_closed _ _ _ _ _ _ C H L). - destruct E as [E1 E2]. exact (saturated_open _ _ _ _ _ _ _ C H E1 E2). Qed.
Lemma full_nodup r b l e : full r b l e -> NoDup (fkeys b l e).
Proof. intros [C [H [L [N E]]]]. destruct b; cbn. - exact (trail_keys _ _ _ _ _ _ _ C H N). - destruct E as [E1 E2]. exact (trail_keys_out _ _ _ _ _ _ _ C H N E2). Qed.
Lemma full_start r b l e : full r b l e -> In (key r) (fkeys b l e).
Proof. intros [C [H [L [N E]]]]. destruct l as [|x l]; [congruence|]. apply trail_head in H. subst. destruct b; left; reflexivity. Qed.
Lemma full_from r b l e k : full r b l e -> In k (fkeys b l e) -> exists y l1, In y (l ++ [e]) /\ k = key y /\ trail r l1 y /\ cut y /\ col y = col r.
Proof.
  intros [C [H [L [N E]]]] I. assert (Q : exists y, In y (l ++ [e]) /\ k = key y).
  { destruct b; cbn in I; apply in_map_iff in I as [y [<- Hy]]; exists y; split; auto. apply in_or_app. left. exact Hy. }
  destruct Q as [y [Hy ->]]. assert (P : exists l1, trail r l1 y).
  { apply in_app_or in Hy as [Hy|[<-|[]]]; [|eauto]. apply in_split in Hy as [l1 [l2 ->]]. apply trail_split in H as [u [A B]]. inversion B; subst. eauto. }
  destruct P as [l1 P]. exists y, l1. destruct (trail_col _ _ _ _ _ _ _ P C) as [P1 [P2 _]]. auto.
Qed.
(** Two whole curves that share an edge have the same edges *)
Lemma full_back K r b l e k : saturated K -> full r b l e -> In k (fkeys b l e) -> In k K -> In (key r) K.
Proof.
  intros S Fu I J. destruct (full_from r b l e k Fu I) as [y [l1 [Hy [-> _]]]]. destruct Fu as [C [H _]]. exact (saturated_trail_back _ _ _ _ K r l e y S C H Hy J).
Qed.
Lemma full_det r b l e l' e' : full r b l e -> trail r l' e' -> l' <> [] -> ~ In r (tl l') -> e' = r \/ ~ valid e' -> l' = l /\ e' = e.
Proof.
  intros [C [H [L [N E]]]] H' L' N' E'.
  assert (Gen : forall l1 e1 l2 e2, trail r l1 e1 -> l1 <> [] -> ~ In r (tl l2) -> e1 = r \/ ~ valid e1 -> trail r l2 e2 -> (length l1 <= length l2)%nat -> l2 = l1 /\ e2 = e1).
  { intros l1 e1 l2 e2 H1 L1 N2 E1 H2 LL. destruct (trail_prefix _ _ _ _ _ _ _ _ _ H1 H2 LL) as [l'' [-> K]]. destruct l'' as [|z l'']; [inversion K; subst; rewrite app_nil_r; auto|]. exfalso. inversion K; subst.
    destruct E1 as [->|E1]; [|contradiction]. apply N2. destruct l1; [congruence|]. cbn. apply in_or_app. right. left. reflexivity. }
  assert (E0 : e = r \/ ~ valid e) by (destruct b; [left; exact E|right; apply E]).
  destruct (Nat.le_gt_cases (length l) (length l')) as [LL|LL].
  - apply (Gen l e l' e'); assumption.
  - destruct (Gen l' e' l e) as [-> ->]; auto. lia.
Qed.
Lemma full_longest r b l e l' e' : full r b l e -> trail r l' e' -> ~ In r (tl l') -> (length l' <= length l)%nat.
Proof.
  intros [C [H [L [N E]]]] H' N'. destruct (Nat.le_gt_cases (length l') (length l)) as [LL|LL]; [exact LL|]. exfalso. assert (LL' : (length l <= length l')%nat) by lia. destruct (trail_prefix _ _ _ _ _ _ _ _ _ H H' LL') as [l'' [-> K]].
  destruct l'' as [|z l'']; [rewrite app_nil_r in LL; lia|]. inversion K; subst. destruct b; [|destruct E; contradiction]. subst. apply N'. destruct l; [congruence|]. cbn. apply in_or_app. right. left. reflexivity.
Qed.
(** Every edge passed belongs to a curve that is kept, or to one that will be reached from the boundary *)
Definition hold (D : list ekey) (P : list (site * bool)) : Prop := forall x, edge_ok x -> cut x -> col x = true -> In (key x) D ->
  (exists r b l e, In (r, b) P /\ full r b l e /\ In (key x) (fkeys b l e)) \/ (exists A l, cut A /\ valid A /\ ~ valid (flip A) /\ trail A l x /\ ~ In (key A) D).
Definition kept (D : list ekey) (P : list (site * bool)) : Prop := exists Q, Forall2 (fun p ks => exists l e, full (fst p) (snd p) l e /\ ks = fkeys (snd p) l e) P Q /\ NoDup (concat Q) /\ incl (concat Q) D.
Lemma kept_incl D P r c l e : kept D P -> In (r, c) P -> full r c l e -> incl (fkeys c l e) D.
Proof.
  intros [Q [F [_ I]]] Hp Fu. assert (G : exists ks, In ks Q /\ exists l e, full r c l e /\ ks = fkeys c l e).
  { clear I. induction F as [|p ks P Q Hk F IH]; [destruct Hp|]. destruct Hp as [->|Hp]; [exists ks; split; [left; reflexivity|exact Hk]|]. destruct (IH Hp) as [k' [A B]]. exists k'. split; [right; exact A|exact B]. }
  destruct G as [ks [Hk [l' [e' [Fu' ->]]]]]. pose proof Fu as [C [H [L [N E]]]]. destruct (full_det r c l' e' l e Fu' H L N) as [-> ->]; [destruct c; [left; exact E|right; apply E]|]. intros q Hq. apply I. apply in_concat. eauto.
Qed.
Inductive ending := KB | KS | KO.
Definition new_keys (k : ending) (l : list site) (e : site) : list ekey := match k with KB => map key (l ++ [e]) | _ => map key l end.
Section Advance.
Variables (opn : ekey -> Prop) (D : list ekey) (P : list (site * bool)) (s0 : site) (l : list site) (e : site) (k : ending).
Hypothesis F : closedF D.
Hypothesis B : closedB opn D.
Hypothesis Od : forall q, opn q -> In q D.
Hypothesis Oi : forall x, opn (key x) -> valid x /\ valid (flip x).
Hypothesis ND : NoDup D.
Hypothesis C0 : cut s0.
Hypothesis V0 : valid s0.
Hypothesis S0 : ~ valid (flip s0) \/ col s0 = true.
Hypothesis N0 : ~ In (key s0) D.
Hypothesis H : trail s0 l e.
Hypothesis L : l <> [].
Hypothesis Nt : ~ In s0 (tl l).
Hypothesis Nop : forall x, In x (tl l) -> ~ opn (key x).
Hypothesis K : match k with KB => ~ valid e | KS => e = s0 /\ valid (flip s0) | KO => valid e /\ opn (key e) end.
Let D' : list ekey := D ++ new_keys k l e.
Let retained : bool := match k with KS => true | _ => negb (validb (flip s0)) end.
Let opn' (q : ekey) : Prop := opn q \/ (retained = false /\ q = key s0).
Lemma K_cases : (k = KB /\ ~ valid e) \/ (k = KS /\ e = s0 /\ valid (flip s0)) \/ (k = KO /\ valid e /\ opn (key e)).
Proof. destruct k; auto. Qed.
Lemma adv_ret : retained = true <-> k = KS \/ ~ valid (flip s0).
Proof.
  unfold retained. assert (Q : negb (validb (flip s0)) = true <-> ~ valid (flip s0)) by (rewrite negb_true_iff; rewrite <- validb_spec; destruct (validb (flip s0)); intuition congruence).
  destruct k; rewrite ?Q; split; intro X; auto; destruct X as [X|X]; auto; discriminate.
Qed.
Lemma adv_fresh : (forall y, In y l -> ~ In (key y) D) /\ (k <> KO -> ~ In (key e) D) /\ (k = KO -> col s0 = true).
Proof.
  destruct (fresh_path opn D s0 F B C0 N0 l e H Nop) as [A1 A2]. split; [exact A1|]. split.
  - intro Nk. destruct k; [|destruct K as [-> _]; exact N0|congruence]. apply A2. left. intro O. destruct (Oi e O). contradiction.
  - intros ->. destruct (col s0) eqn:E; [reflexivity|]. destruct K as [_ O]. exfalso. apply A2; auto.
Qed.
Lemma adv_nodup : NoDup D'.
Proof.
  destruct adv_fresh as [A1 [A2 _]]. assert (N : NoDup (new_keys k l e)) by (destruct k; [exact (trail_keys_out _ _ _ _ _ _ _ C0 H Nt K)|exact (trail_keys _ _ _ _ _ _ _ C0 H Nt)|exact (trail_keys _ _ _ _ _ _ _ C0 H Nt)]).
  assert (Dj : forall q, In q (new_keys k l e) -> ~ In q D).
  { intros q Hq. unfold new_keys in Hq. destruct k; apply in_map_iff in Hq as [y [<- Hy]]; auto. apply in_app_or in Hy as [Hy|[<-|[]]]; [auto|apply A2; discriminate]. }
  exact (nodup_app D _ ND N Dj).
Qed.
Lemma s0_first : exists l', l = s0 :: l'.
Proof. destruct l as [|x l']; [congruence|]. pose proof (trail_head _ _ _ _ _ _ _ _ H) as ->. exists l'. reflexivity. Qed.
Lemma adv_l y : In y l -> In (key y) D'.
Proof. intro Hy. apply in_or_app. right. unfold new_keys. destruct k; apply in_map; [apply in_or_app; left|..]; exact Hy. Qed.
Lemma adv_e : In (key e) D'.
Proof.
  destruct k eqn:Ek.
  - apply in_or_app. right. cbn. apply in_map, in_or_app. right. left. reflexivity.
  - destruct K as [Ee _]. rewrite Ee. destruct s0_first as [l' El]. apply in_or_app. right. cbn. apply in_map. rewrite El. left. reflexivity.
  - apply in_or_app. left. apply Od, K.
Qed.
Lemma adv_s0 : In (key s0) D'. Proof. destruct s0_first as [l' El]. apply adv_l. rewrite El. left. reflexivity. Qed.
Lemma adv_new q : In q D' -> In q D \/ exists y, In y (l ++ [e]) /\ q = key y /\ (k <> KB -> In y l).
Proof.
  intro I. apply in_app_or in I as [I|I]; [left; exact I|]. right. unfold new_keys in I. destruct k; apply in_map_iff in I as [y [<- Hy]]; exists y; (split; [|split; [reflexivity|]]); auto; try congruence; apply in_or_app; left; exact Hy.
Qed.
(** going forward along the path *)
Lemma adv_next y : In y l -> In (key (step y)) D'.
Proof.
  intro Hy. apply In_nth_error in Hy as [i Hi]. assert (Li : (i < length l)%nat) by (apply nth_error_Some; congruence). assert (Hi' : nth_error (l ++ [e]) i = Some y) by (rewrite nth_error_app1; assumption).
  destruct (nth_error (l ++ [e]) (S i)) as [z|] eqn:Hz; [|apply nth_error_None in Hz; rewrite app_length in Hz; cbn in Hz; lia].
  destruct (trail_nth _ _ _ _ _ _ _ H i y z Hi' Hz) as [_ <-]. apply nth_error_In in Hz. apply in_app_or in Hz as [Hz|[<-|[]]]; [apply adv_l, Hz|exact adv_e].
Qed.
(** going backward *)
Lemma adv_prev y : In y (l ++ [e]) -> y <> s0 -> In (key (step (flip y))) D' /\ valid (flip y).
Proof.
  intros Hy N. apply In_nth_error in Hy as [i Hi]. destruct i as [|i].
  - exfalso. destruct s0_first as [l' El]. rewrite El in Hi. cbn in Hi. congruence.
  - destruct (nth_error (l ++ [e]) i) as [w|] eqn:Hw; [|apply nth_error_None in Hw; assert (S i < length (l ++ [e]))%nat by (apply nth_error_Some; congruence); lia].
    destruct (trail_nth _ _ _ _ _ _ _ H i w y Hw Hi) as [Iw ->]. destruct (trail_col _ _ _ _ _ _ _ H C0) as [_ [_ Cl]]. destruct (Cl w Iw) as [Cw _]. rewrite (step_back a T w Cw), key_flip. split; [apply adv_l, Iw|]. apply step_ok. exact (trail_valid _ _ _ _ _ _ _ H w Iw).
Qed.
Lemma adv_col y : In y (l ++ [e]) -> cut y /\ col y = col s0.
Proof. intro Hy. destruct (trail_col _ _ _ _ _ _ _ H C0) as [Ce [Be Cl]]. apply in_app_or in Hy as [Hy|[<-|[]]]; auto. Qed.
Lemma adv_F : closedF D'.
Proof.
  intros x Cx Bx Vx I. apply adv_new in I as [I|[y [Hy [E Hl]]]]; [apply in_or_app; left; apply F; assumption|]. destruct (adv_col y Hy) as [Cy By]. destruct (key_eq y x (eq_sym E)) as [->| ->].
  - apply in_app_or in Hy as [Hy|[<-|[]]]; [apply adv_next, Hy|]. destruct K_cases as [[Ek Ve]|[[Ek _]|[Ek _]]]; [contradiction|apply adv_next, Hl; rewrite Ek; discriminate|apply adv_next, Hl; rewrite Ek; discriminate].
  - destruct (site_eq_dec y s0) as [->|N]; [|apply (adv_prev y Hy N)]. destruct S0 as [Q|Q]; [contradiction|]. rewrite col_flip in Bx by exact Cy. rewrite Q in Bx. discriminate.
Qed.
Lemma adv_B : closedB opn' D'.
Proof.
  intros x Cx Bx Vx I O. apply adv_new in I as [I|[y [Hy [E Hl]]]]; [apply in_or_app; left; apply B; auto; intro Q; apply O; left; exact Q|]. destruct (adv_col y Hy) as [Cy By]. destruct (key_eq y x (eq_sym E)) as [->| ->].
  - apply in_app_or in Hy as [Hy|[<-|[]]]; [apply adv_next, Hy|]. destruct K_cases as [[Ek Ve]|[[Ek _]|[Ek _]]]; [contradiction|apply adv_next, Hl; rewrite Ek; discriminate|apply adv_next, Hl; rewrite Ek; discriminate].
  - destruct (site_eq_dec y s0) as [->|N]; [|apply (adv_prev y Hy N)]. destruct K_cases as [[Ek _]|[[Ek [Ee _]]|[Ek _]]].
    + exfalso. apply O. right. split; [|exact (key_flip s0)]. unfold retained. rewrite Ek. apply negb_false_iff, validb_spec, Vx.
    + destruct (@exists_last _ l L) as [l' [w Ew]]. pose proof H as H1. rewrite Ew in H1. apply trail_unsnoc in H1 as [H1 [Vw Es]]. rewrite <- Ee, Es. rewrite (step_back a T w); [|exact (trail_cut _ _ _ _ _ _ _ H1 C0)]. rewrite key_flip. apply adv_l. rewrite Ew. apply in_or_app. right. left. reflexivity.
    + exfalso. apply O. right. split; [|exact (key_flip s0)]. unfold retained. rewrite Ek. apply negb_false_iff, validb_spec, Vx.
Qed.
Lemma adv_full : retained = true -> exists b l' e', full s0 b l' e' /\ incl (fkeys b l' e') D' /\ (b = true <-> k = KS) /\ (k <> KO -> l' = l /\ e' = e).
Proof.
  intro R. apply adv_ret in R. destruct adv_fresh as [_ [_ A3]]. destruct K_cases as [[Ek Ve]|[[Ek [Ee _]]|[Ek _]]]; rewrite Ek in R.
  - destruct R as [R|R]; [discriminate|]. exists false, l, e. split; [split; [exact C0|]; repeat split; assumption|]. split; [|split; [rewrite Ek; split; discriminate|auto]]. intros q Hq. apply in_or_app. right. rewrite Ek. exact Hq.
  - exists true, l, e. split; [split; [exact C0|]; repeat split; assumption|]. split; [|split; [rewrite Ek; split; reflexivity|auto]]. intros q Hq. apply in_or_app. right. rewrite Ek. exact Hq.
  - destruct R as [R|R]; [discriminate|]. destruct (trail_full imax jmax a T s0 C0 V0) as [l' [e' [H' [L' [N' E']]]]]. assert (Ve' : ~ valid e') by (destruct E' as [->|E']; [|exact E']; destruct (trail_end _ _ _ _ _ _ _ H' L') as [_ Vf]; contradiction).
    exists false, l', e'. split; [split; [exact C0|]; repeat split; assumption|]. split; [|split; [rewrite Ek; split; discriminate|congruence]]. destruct (closedF_trail D' s0 l' e' adv_F C0 (A3 Ek) H' adv_s0) as [Q1 Q2].
    intros q Hq. cbn in Hq. apply in_map_iff in Hq as [y [<- Hy]]. apply in_app_or in Hy as [Hy|[<-|[]]]; auto.
Qed.
Lemma adv_hold b : hold D P -> (forall r c l' e', In (r, c) P -> full r c l' e' -> incl (fkeys c l' e') D) -> (retained = true -> exists l' e', full s0 b l' e') -> hold D' (if retained then P ++ [(s0, b)] else P).
Proof.
  intros Ho Kp Fu. set (P' := if retained then P ++ [(s0, b)] else P).
  assert (PP : forall r c, In (r, c) P -> In (r, c) P') by (intros r c I; unfold P'; destruct retained; [apply in_or_app; left|]; exact I).
  (* when kept, everything on the path belongs to the curve of s0 *)
  assert (Own : retained = true -> forall q y l1, In q (l ++ [e]) -> key q = key y -> cut y -> forall x, trail y l1 x -> exists r c l' e', In (r, c) P' /\ full r c l' e' /\ In (key x) (fkeys c l' e')).
  { intros R q y l1 Hq E Cy x Hx. destruct (Fu R) as [l' [e' Fs]]. exists s0, b, l', e'. split; [unfold P'; rewrite R; apply in_or_app; right; left; reflexivity|]. split; [exact Fs|].
    pose proof (full_sat _ _ _ _ Fs) as S. destruct (saturated_trail _ _ _ _ (fkeys b l' e') s0 l e S C0 H (full_start _ _ _ _ Fs)) as [Q1 Q2].
    assert (In (key y) (fkeys b l' e')) by (rewrite <- E; apply in_app_or in Hq as [Hq|[<-|[]]]; auto). apply (saturated_trail _ _ _ _ _ y l1 x S Cy Hx H0). }
  (* a boundary site, oriented, among the new edges: only when kept *)
  assert (Bnd : forall A, cut A -> col A = true -> valid A -> ~ valid (flip A) -> In (key A) D' -> ~ In (key A) D -> retained = true /\ exists q, In q (l ++ [e]) /\ key q = key A).
  { intros A CA BA VA NA I NI. apply adv_new in I as [I|[y [Hy [E Hl]]]]; [contradiction|]. destruct (adv_col y Hy) as [Cy By]. split; [|exists y; auto]. apply adv_ret.
    destruct (site_eq_dec y s0) as [->|N].
    - destruct (key_eq s0 A (eq_sym E)) as [->| ->]; [right; exact NA|]. right. intro V. rewrite flip_flip in NA. exact (NA V0).
    - destruct (adv_prev y Hy N) as [_ Vf]. destruct (key_eq y A (eq_sym E)) as [->| ->]; [contradiction|]. rewrite flip_flip in NA. right. destruct S0 as [Q|Q]; [exact Q|]. exfalso. rewrite col_flip in BA by exact Cy. rewrite By, Q in BA. discriminate. }
  intros x Ex Cx Bx I. destruct (in_dec key_eq_dec (key x) D) as [Ix|Nx].
  - destruct (Ho x Ex Cx Bx Ix) as [[r [c [l' [e' [I1 [I2 I3]]]]]]|[A [l1 [CA [VA [NA [HA NI]]]]]]]; [left; exists r, c, l', e'; auto|].
    destruct (in_dec key_eq_dec (key A) D') as [IA|NA']; [|right; exists A, l1; auto 10].
    destruct (trail_col _ _ _ _ _ _ _ HA CA) as [_ [Q _]]. destruct (Bnd A CA ltac:(congruence) VA NA IA NI) as [R [q [Hq Eq]]]. left. exact (Own R q A l1 Hq Eq CA x HA).
  - assert (DR : retained = true \/ retained = false) by (destruct retained; auto). destruct DR as [R|R].
    + left. apply adv_new in I as [I|[y [Hy [E _]]]]; [contradiction|]. exact (Own R y x [] Hy (eq_sym E) Cx x (trail_nil _ _ _ _ x)).
    + right. assert (NR : k <> KS /\ valid (flip s0)).
      { split; [intro X; pose proof (proj2 adv_ret (or_introl X)); congruence|]. destruct (valid_dec (flip s0)) as [V|V]; [exact V|]. pose proof (proj2 adv_ret (or_intror V)). congruence. }
      destruct NR as [NK Vf]. assert (B0 : col s0 = true) by (destruct S0; [contradiction|assumption]).
      (* x is on the path, in its direction *)
      assert (Hx : exists l1, trail s0 l1 x).
      { apply adv_new in I as [I|[y [Hy [E _]]]]; [contradiction|]. destruct (adv_col y Hy) as [Cy By]. destruct (key_eq y x (eq_sym E)) as [->| ->]; [|rewrite col_flip, By, B0 in Bx by exact Cy; discriminate].
        apply in_app_or in Hy as [Hy|[<-|[]]]; [|exists l; exact H]. apply in_split in Hy as [l1 [l2 El]]. rewrite El in H. apply trail_split in H as [u [A1 A2]]. inversion A2; subst. exists l1. exact A1. }
      destruct Hx as [l1 Hx].
      destruct (trail_full imax jmax a T (flip s0) (cut_flip a s0 C0) Vf) as [l2 [t2 [H2 [L2 [N2 E2]]]]].
      destruct (valid_dec t2) as [Vt|Vt].
      * (* a closed curve through s0: then its first part cannot have ended *)
        exfalso. assert (t2 = flip s0) by (destruct E2; [assumption|contradiction]). subst t2. pose proof (saturated_closed _ _ _ _ _ _ (cut_flip a s0 C0) H2 L2) as S.
        assert (I0 : In (key s0) (map key l2)) by (destruct l2 as [|z l2]; [congruence|]; pose proof (trail_head _ _ _ _ _ _ _ _ H2) as ->; left; apply key_flip).
        assert (Both : forall y, In (key y) (map key l2) -> valid y /\ valid (flip y)).
        { intros y Iy. apply in_map_iff in Iy as [z [Ez Hz]]. assert (Vz : valid z /\ valid (flip z)).
          { split; [exact (trail_valid _ _ _ _ _ _ _ H2 z Hz)|]. apply in_split in Hz as [p1 [p2 Ep]]. rewrite Ep in H2. apply trail_split in H2 as [u [A1 A2]]. inversion A2; subst. destruct p1 as [|w p1]; [inversion A1; subst; rewrite flip_flip; exact V0|]. apply (trail_end _ _ _ _ _ _ _ A1). discriminate. }
          destruct (key_eq z y Ez) as [->| ->]; [exact Vz|]. rewrite flip_flip. tauto. }
        destruct (saturated_trail _ _ _ _ _ s0 l e S C0 H I0) as [_ Ie]. destruct K_cases as [[Ek Ve]|[[Ek _]|[Ek [Ve Oe]]]]; [|congruence|].
        -- destruct (Both e Ie). contradiction.
        -- assert (Ce : cut e) by exact (trail_cut _ _ _ _ _ _ _ H C0). assert (Be : col e = true) by (destruct (trail_col _ _ _ _ _ _ _ H C0) as [_ [Q _]]; congruence).
           destruct (Ho e (valid_edge _ _ e Ve) Ce Be (Od _ Oe)) as [[r [c [l' [e' [I1 [I2 I3]]]]]]|[A [l3 [CA [VA [NA [HA NI]]]]]]].
           ++ apply N0. apply (Kp r c l' e' I1 I2). exact (saturated_trail_back _ _ _ _ _ s0 l e e (full_sat _ _ _ _ I2) C0 H ltac:(apply in_or_app; right; left; reflexivity) I3).
           ++ apply NA. apply Both. exact (saturated_trail_back _ _ _ _ _ A l3 e e S CA HA ltac:(apply in_or_app; right; left; reflexivity) Ie).
      * exists (flip t2). pose proof (trail_back _ _ _ _ _ _ _ (cut_flip a s0 C0) H2) as H3. rewrite flip_flip in H3. eexists. split; [apply cut_flip; exact (trail_cut _ _ _ _ _ _ _ H2 (cut_flip a s0 C0))|].
        destruct (trail_end _ _ _ _ _ _ _ H2 L2) as [_ Vft]. split; [exact Vft|]. rewrite flip_flip. split; [exact Vt|]. split; [exact (trail_app _ _ _ _ _ _ _ _ _ H3 Hx)|].
        assert (CA : cut (flip t2)) by (apply cut_flip; exact (trail_cut _ _ _ _ _ _ _ H2 (cut_flip a s0 C0))).
        assert (BA : col (flip t2) = true) by (destruct (trail_col _ _ _ _ _ _ _ H3 CA) as [_ [Q _]]; congruence).
        intro IA. destruct (in_dec key_eq_dec (key (flip t2)) D) as [J|J].
        -- apply N0. apply (closedF_trail D _ _ _ F CA BA H3 J).
        -- destruct (Bnd (flip t2) CA BA Vft ltac:(rewrite flip_flip; exact Vt) IA J) as [R' _]. congruence.
Qed.
Lemma adv_kept b l' e' : kept D P -> retained = true -> full s0 b l' e' -> incl (fkeys b l' e') D' -> kept D' (P ++ [(s0, b)]).
Proof.
  intros Kp R Fu I. pose proof Kp as [Q [F2 [N In0]]]. exists (Q ++ [fkeys b l' e']). split; [apply Forall2_app; [exact F2|]; constructor; [|constructor]; exists l', e'; auto|]. rewrite concat_app. cbn [concat]. rewrite app_nil_r. split.
  - apply nodup_app; [exact N|exact (full_nodup _ _ _ _ Fu)|]. intros q Hq Iq. apply N0. apply In0. apply in_concat in Iq as [ks [Hk Iq]]. apply in_concat. exists ks. split; [exact Hk|].
    assert (S : saturated ks). { clear - F2 Hk. induction F2 as [|p ks' P0 Q0 [l1 [e1 [Fp ->]]] F2 IH]; [destruct Hk|]. destruct Hk as [<-|Hk]; [exact (full_sat _ _ _ _ Fp)|auto]. }
    exact (full_back ks s0 b l' e' q S Fu Hq Iq).
  - intros q Hq. apply in_app_or in Hq as [Hq|Hq]; [apply in_or_app; left; apply In0, Hq|apply I, Hq].
Qed.
Lemma advance b : (b = true <-> k = KS) -> kept D P -> hold D P ->
  NoDup D' /\ closedF D' /\ closedB opn' D' /\ kept D' (if retained then P ++ [(s0, b)] else P) /\ hold D' (if retained then P ++ [(s0, b)] else P).
Proof.
  intros Eb Kp Ho. split; [exact adv_nodup|]. split; [exact adv_F|]. split; [exact adv_B|].
  assert (Fb : retained = true -> exists l' e', full s0 b l' e' /\ incl (fkeys b l' e') D').
  { intro R. destruct (adv_full R) as [b' [l' [e' [Fu [I [Eb' _]]]]]]. assert (b' = b) by (destruct b, b'; try reflexivity; intuition congruence). subst b'. eauto. }
  split.
  - assert (DR : retained = true \/ retained = false) by (destruct retained; auto). destruct DR as [R|R]; rewrite R.
    + destruct (Fb R) as [l' [e' [Fu I]]]. exact (adv_kept b l' e' Kp R Fu I).
    + destruct Kp as [Q [F2 [N I]]]. exists Q. split; [exact F2|]. split; [exact N|]. intros q Hq. apply in_or_app. left. apply I, Hq.
  - apply adv_hold; [exact Ho|intros r c l' e' Ip Fu; exact (kept_incl D P r c l' e' Kp Ip Fu)|]. intro R. destruct (Fb R) as [l' [e' [Fu _]]]. eauto.
Qed.
End Advance.
End Curves.

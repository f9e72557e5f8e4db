(** What the work array holds before the first use does not matter *)
From Coq Require Import Lia.
From Verif Require Import M_Base M_Cntr L_Cntr10 L_Extract.

(** Two runs give the same kind of result *)
Definition rr {A B} (P : A -> B -> Prop) (x : res A) (y : res B) : Prop := match x, y with Ok a, Ok b => P a b | Err e, Err f => e = f | _, _ => False end.
Lemma rr_bind {A B C D} (P : A -> B -> Prop) (Q : C -> D -> Prop) x y f g : rr P x y -> (forall a b, P a b -> rr Q (f a) (g b)) -> rr Q (bind x f) (bind y g).
Proof. destruct x, y; cbn; intros H K; try contradiction; auto. Qed.
Lemma rr_eq {A} (x y : res A) : rr eq x y -> x = y. Proof. destruct x, y; cbn; intro H; try contradiction; congruence. Qed.
Lemma rr_refl {A} (x : res A) : rr eq x x. Proof. destruct x; reflexivity. Qed.

Section Two.
Variable K : Z -> Prop.
Definition rel (d e : Z -> cell) : Prop := forall k, K k -> d k = e k.
Lemma get_rr n d e k : rel d e -> (inside n k = true -> K k) -> rr eq (get n d k) (get n e k).
Proof. intros R H. unfold get. destruct (inside n k); [|reflexivity]. apply R, H. reflexivity. Qed.
Lemma put_rr n d e k v : rel d e -> rr rel (put n d k v) (put n e k v).
Proof. intro R. unfold put. destruct (inside n k); [|reflexivity]. intros m Hm. destruct (m =? k); [reflexivity|apply R, Hm]. Qed.
Lemma change_rr n d e k f : rel d e -> (inside n k = true -> K k) -> rr rel (change n d k f) (change n e k f).
Proof. intros R H. unfold change. apply (rr_bind eq); [apply get_rr; assumption|]. intros a b ->. apply put_rr, R. Qed.
Lemma change_if_rr (c : bool) n d e k f : rel d e -> (inside n k = true -> K k) -> rr rel (if c then change n d k f else Ok d) (if c then change n e k f else Ok e).
Proof. destruct c; [apply change_rr|]. intros R _. exact R. Qed.
End Two.
Lemma rel_weaken (K L : Z -> Prop) d e : (forall k, L k -> K k) -> rel K d e -> rel L d e.
Proof. intros H R k Hk. apply R, H, Hk. Qed.
Lemma put_new (K L : Z -> Prop) n d e k v : (forall m, L m -> m <> k -> K m) -> rel K d e -> rr (rel L) (put n d k v) (put n e k v).
Proof. intros H R. unfold put. destruct (inside n k); [|reflexivity]. intros m Hm. destruct (Z.eqb_spec m k); [reflexivity|apply R, H; assumption]. Qed.

Section Init.
Variables imax jmax : Z.
Variable above : Z -> bool.
Hypothesis I1 : 1 <= imax.
Hypothesis J1 : 1 <= jmax.
Notation nreg := (nreg imax jmax).
(** Written once the points before m have been treated *)
Definition known (m k : Z) : Prop := 0 <= k <= m \/ imax + 1 <= k <= m + imax.
Notation out R := (fun a b : (Z -> cell) * Z => R (fst a) (fst b) /\ snd a = snd b).
Lemma i_marks_rr ij ib d e count : imax <= ij -> rel (known (ij + 1)) d e -> rr (out (rel (known (ij + 1)))) (i_marks imax jmax ij ib d count) (i_marks imax jmax ij ib e count).
Proof.
  intros L R. unfold i_marks. apply (rr_bind eq); [apply get_rr with (1 := R); intros _; unfold known; lia|]. intros c0 ? <-. apply (rr_bind eq); [apply get_rr with (1 := R); intros _; unfold known; lia|]. intros cb ? <-. destruct (eqb (c_z c0) (c_z cb)); [split; [exact R|reflexivity]|].
  apply (rr_bind eq); [apply get_rr with (1 := R); intros _; unfold known; lia|]. intros c1 ? <-. destruct ib.
  - apply (rr_bind (rel (known (ij + 1)))); [apply change_if_rr; [exact R|intros _; unfold known; lia]|]. intros d1 e1 R1. apply (rr_bind (rel (known (ij + 1)))); [apply change_if_rr; [exact R1|intros _; unfold known; lia]|]. intros d2 e2 R2. split; [exact R2|reflexivity].
  - apply (rr_bind eq); [apply get_rr with (1 := R); intros _; unfold known; lia|]. intros ca ? <-. apply (rr_bind eq); [apply get_rr with (1 := R); intros _; unfold known; lia|]. intros cd ? <-.
    apply (rr_bind (rel (known (ij + 1)))); [apply change_if_rr; [exact R|intros _; unfold known; lia]|]. intros d1 e1 R1. apply (rr_bind (rel (known (ij + 1)))); [apply change_if_rr; [exact R1|intros _; unfold known; lia]|]. intros d2 e2 R2. split; [exact R2|reflexivity].
Qed.
Lemma j_marks_rr ij d e count : 1 <= ij -> rel (known (ij + 1)) d e -> rr (out (rel (known (ij + 1)))) (j_marks imax jmax ij d count) (j_marks imax jmax ij e count).
Proof.
  intros L R. unfold j_marks. apply (rr_bind eq); [apply get_rr with (1 := R); intros _; unfold known; lia|]. intros c0 ? <-. apply (rr_bind eq); [apply get_rr with (1 := R); intros _; unfold known; lia|]. intros cb ? <-. destruct (eqb (c_z c0) (c_z cb)); [split; [exact R|reflexivity]|].
  apply (rr_bind eq); [apply get_rr with (1 := R); intros _; unfold known; lia|]. intros ca ? <-.
  apply (rr_bind (rel (known (ij + 1)))); [apply change_if_rr; [exact R|intros _; unfold known; lia]|]. intros d1 e1 R1. apply (rr_bind (rel (known (ij + 1)))); [apply change_if_rr; [exact R1|intros _; unfold known; lia]|]. intros d2 e2 R2. split; [exact R2|reflexivity].
Qed.
Definition srel (m : Z) (s t : init_state) : Prop := rel (known m) (n_data s) (n_data t) /\ n_count s = n_count t /\ n_ichunk s = n_ichunk t /\ n_was s = n_was t.
Lemma init_point_rr i j jchunk s t : 0 <= i < imax -> 0 <= j -> (j = 0 -> jchunk = 0) -> srel (i + j * imax) s t -> rr (srel (i + j * imax + 1)) (init_point imax jmax above j jchunk i s) (init_point imax jmax above j jchunk i t).
Proof.
  intros Hi Hj Hc [R [Ec [Ei _]]]. unfold init_point. rewrite <- Ec, <- Ei. set (ij := i + j * imax) in *. assert (Bj : j = 0 -> ij = i) by (intros ->; unfold ij; lia). assert (Bi : 1 <= j -> imax <= ij) by (unfold ij; nia). assert (B0 : 0 <= ij) by (unfold ij; nia).
  set (K1 := fun k => known ij k \/ k = ij + imax + 1). apply (rr_bind (rel K1)); [apply put_new with (2 := R); unfold K1; intros m [H|H] N; [exact H|contradiction]|]. intros d1 e1 R1.
  apply (rr_bind (rel (known (ij + 1)))).
  { destruct (Z.ltb_spec ij imax) as [L|L].
    - apply put_new with (2 := R1). unfold K1, known. intros m H N. lia.
    - apply (rel_weaken K1); [|exact R1]. unfold K1, known. intros m H. lia. }
  intros d2 e2 R2. apply (rr_bind eq); [apply rr_refl|]. intros zv ? <-. apply (rr_bind (rel (known (ij + 1)))); [apply change_if_rr; [exact R2|intros _; unfold known; lia]|]. intros d3 e3 R3.
  apply (rr_bind eq). { destruct (i =? n_ichunk s); [reflexivity|]. apply (rr_bind eq); [apply get_rr with (1 := R3); intros _; unfold known; lia|]. intros c ? <-. apply (rr_bind eq); [apply get_rr with (1 := R3); intros _; unfold known; lia|]. intros c1 ? <-. reflexivity. }
  intros ibndy ? <-. apply (rr_bind eq).
  { destruct (Z.eqb_spec j jchunk) as [E|E]; [reflexivity|]. assert (1 <= j) by (destruct (Z.eq_dec j 0) as [Z0|]; [rewrite (Hc Z0) in E; congruence|lia]). apply (rr_bind eq); [apply get_rr with (1 := R3); intros _; unfold known; lia|]. intros c ? <-. apply (rr_bind eq); [apply get_rr with (1 := R3); intros _; unfold known; lia|]. intros c1 ? <-. reflexivity. }
  intros jbndy ? <-. apply (rr_bind (rel (known (ij + 1)))); [apply change_if_rr; [exact R3|intros _; unfold known; lia]|]. intros d4 e4 R4. apply (rr_bind (rel (known (ij + 1)))); [apply change_if_rr; [exact R4|intros _; unfold known; lia]|]. intros d5 e5 R5.
  apply (rr_bind (out (rel (known (ij + 1))))). { destruct (Z.eqb_spec j 0) as [E|E]; [split; [exact R5|reflexivity]|]. apply i_marks_rr; [lia|exact R5]. }
  intros r1 r2 [R6 E6]. apply (rr_bind (out (rel (known (ij + 1))))). { destruct (negb (i =? 0) && jbndy)%bool eqn:Q; [|split; assumption]. rewrite <- E6. apply j_marks_rr; [|exact R6]. apply andb_true_iff in Q as [Q _]. apply negb_true_iff, Z.eqb_neq in Q. unfold ij. nia. }
  intros r3 r4 [R7 E7]. split; [exact R7|]. split; [exact E7|]. split; reflexivity.
Qed.
Lemma rounds_rr {S} (P : Z -> S -> S -> Prop) body lo hi : (forall i s t, lo <= i < hi -> P i s t -> rr (P (i + 1)) (body i s) (body i t)) -> forall n i s t, lo <= i -> i + Z.of_nat n = hi -> P i s t -> rr (P hi) (rounds n i body s) (rounds n i body t).
Proof.
  intros B n. induction n as [|n IH]; intros i s t L E H; [replace hi with i by lia; exact H|]. cbn [rounds]. apply (rr_bind (P (i + 1))); [apply B; [lia|exact H]|]. intros a b Hab. apply IH; [lia|lia|exact Hab].
Qed.
Definition rrel (j : Z) (s t : (Z -> cell) * Z * Z * bool) : Prop :=
  let '(d, c, jc, st) := s in let '(d', c', jc', st') := t in rel (known (j * imax)) d d' /\ c = c' /\ jc = jc' /\ st = st' /\ (j = 0 -> jc = 0).
Lemma init_row_rr j s t : 0 <= j -> rrel j s t -> rr (rrel (j + 1)) (init_row imax jmax above j s) (init_row imax jmax above j t).
Proof.
  intros Hj. destruct s as [[[d c] jc] st], t as [[[d' c'] jc'] st']. intros [R [<- [<- [<- Z0]]]]. unfold init_row.
  apply (rr_bind (srel (imax + j * imax))).
  { apply (rounds_rr (fun i => srel (i + j * imax)) _ 0 imax) with (i := 0); [|lia|lia|].
    - intros i s t Hi Hs. replace (i + 1 + j * imax) with (i + j * imax + 1) by lia. apply init_point_rr; assumption.
    - split; [exact R|]. split; [reflexivity|]. split; reflexivity. }
  intros s t [Rs [Ec _]]. rewrite <- Ec. replace (imax + j * imax) with ((j + 1) * imax) in Rs by lia. destruct (_ && _)%bool.
  - apply (rr_bind (rel (known ((j + 1) * imax)))); [apply change_rr; [exact Rs|]; intros _; unfold known; nia|]. intros d1 d2 R1. split; [exact R1|]. split; [reflexivity|]. split; [reflexivity|]. split; [reflexivity|]. lia.
  - split; [exact Rs|]. split; [reflexivity|]. split; [reflexivity|]. split; [reflexivity|]. lia.
Qed.
Definition whole (k : Z) : Prop := 0 <= k < nreg.
Definition trel (t u : tracer) : Prop := rel whole (t_data t) (t_data u) /\ t_saddle t = t_saddle u /\ t_count t = t_count u /\ t_edge0 t = t_edge0 u /\ t_left0 t = t_left0 u /\ t_edge00 t = t_edge00 u.
Lemma data_init_rr mem mem' : rr trel (data_init imax jmax above mem) (data_init imax jmax above mem').
Proof.
  unfold data_init. apply (rr_bind eq); [apply rr_refl|]. intros z0 ? <-.
  apply (rr_bind (rel (known 0))). { apply put_new with (K := fun _ => False); [unfold known; intros m H N; lia|]. intros k []. }
  intros d d' R. apply (rr_bind (rrel jmax)).
  { apply (rounds_rr rrel _ 0 jmax) with (i := 0); [intros j s t Hj; apply init_row_rr; lia|lia|lia|]. split; [exact R|]. auto. }
  intros [[[d1 c] jc] st] [[[d1' c'] jc'] st'] [R1 [<- _]]. assert (R2 : rel whole d1 d1') by (apply (rel_weaken (known (jmax * imax))); [|exact R1]; unfold whole, known, M_Cntr.nreg; intros k Hk; assert (imax <= jmax * imax) by nia; lia).
  apply (rr_bind (rel whole)); [apply change_if_rr; [exact R2|intros _; unfold whole, M_Cntr.nreg; nia]|]. intros d2 d2' R3. split; [exact R3|]. auto 6.
Qed.
End Init.

Section Run.
Variables imax jmax : Z.
Variable centre : Z -> Z -> Z -> Z -> bool.
Notation nreg := (nreg imax jmax).
Notation whole := (whole imax jmax).
Notation trel := (trel imax jmax).
Lemma in_whole k : inside nreg k = true -> whole k.
Proof. unfold inside, L_Cntr12.whole. rewrite andb_true_iff, Z.leb_le, Z.ltb_lt. auto. Qed.
Lemma getw d e k : rel whole d e -> rr eq (get nreg d k) (get nreg e k). Proof. intro R. apply (get_rr whole); [exact R|apply in_whole]. Qed.
Lemma changew d e k f : rel whole d e -> rr (rel whole) (change nreg d k f) (change nreg e k f). Proof. intro R. apply change_rr; [exact R|apply in_whole]. Qed.
Lemma erase_rr edge lf t u : trel t u -> rr trel (erase imax jmax edge lf t) (erase imax jmax edge lf u).
Proof.
  intros H. pose proof H as [R [A [B [C [D E]]]]]. unfold erase. apply (rr_bind eq); [apply getw; exact R|]. intros c ? <-. destruct (marked lf c); [|exact H]. apply (rr_bind (rel whole)); [apply put_rr, R|]. intros d d' R'. rewrite B. split; [exact R'|]. cbn. auto 6.
Qed.
Lemma check_rr p2 cl edge lf fwd t u : trel t u -> rr (fun a b => trel (fst (fst a)) (fst (fst b)) /\ snd (fst a) = snd (fst b) /\ snd a = snd b) (check_edge imax jmax p2 cl edge lf fwd t) (check_edge imax jmax p2 cl edge lf fwd u).
Proof.
  intros H. pose proof H as [R [A [B [C [D E]]]]]. unfold check_edge. apply (rr_bind eq); [apply getw; exact R|]. intros c ? <-. destruct (negb p2 && c_open c)%bool; [cbn; auto|]. rewrite C, D. destruct (_ && _)%bool; [cbn; auto|]. destruct p2; [cbn; auto|].
  apply (rr_bind trel); [apply erase_rr, H|]. intros t1 u1 H1. apply (rr_bind trel); [apply erase_rr, H1|]. intros t2 u2 H2. cbn. auto.
Qed.
Lemma turn_rr edge lf p0 p1 t u : trel t u -> rr (fun a b => trel (fst a) (fst b) /\ snd a = snd b) (turn imax jmax centre edge lf p0 p1 t) (turn imax jmax centre edge lf p0 p1 u).
Proof.
  intros H. pose proof H as [R [A [B [C [D E]]]]]. unfold turn. apply (rr_bind eq); [apply getw; exact R|]. intros c0 ? <-. apply (rr_bind eq); [apply getw; exact R|]. intros c2 ? <-. apply (rr_bind eq); [apply getw; exact R|]. intros c3 ? <-.
  destruct (eqb (c_z c0) (c_z c2)), (eqb (negb (c_z c0)) (c_z c3)); try (cbn; auto; fail). rewrite A. apply (rr_bind eq); [apply rr_refl|]. intros o ? <-.
  apply (rr_bind (fun a b => trel (fst a) (fst b) /\ snd a = snd b)).
  - destruct o as [g|]; [cbn; auto|]. destruct (inside _ _ && _ && _ && _)%bool; [|reflexivity]. apply (rr_bind eq); [apply rr_refl|]. intros sd ? <-. cbn. split; [|reflexivity]. split; [exact R|]. cbn. auto 6.
  - intros a b [Ha Hb]. cbn. rewrite Hb. auto.
Qed.
Definition zrel (a b : tracer * Z * Z * list (Z * Z)) : Prop := let '(t, n, dn, p) := a in let '(u, n', dn', p') := b in trel t u /\ n = n' /\ dn = dn' /\ p = p'.
Lemma cross_rr p2 cl room fuel : forall edge lf fwd jedge n dn pts t u, trel t u -> rr zrel (cross imax jmax centre fuel p2 cl room edge lf fwd jedge n dn pts t) (cross imax jmax centre fuel p2 cl room edge lf fwd jedge n dn pts u).
Proof.
  induction fuel as [|f IH]; intros edge lf fwd jedge n dn pts t u H; [reflexivity|]. cbn [cross]. apply (rr_bind eq); [apply rr_refl|]. intros q ? <-.
  apply (rr_bind (fun a b => trel (fst (fst a)) (fst (fst b)) /\ snd (fst a) = snd (fst b) /\ snd a = snd b)); [destruct (_ && _)%bool; [apply check_rr, H|cbn; auto]|].
  intros [[t1 dn1] st] [[u1 dn1'] st'] [H1 [E1 E2]]. cbn in H1, E1, E2. subst dn1' st'. destruct st; [cbn; auto|]. destruct (negb (dn1 =? 0)); [cbn; auto|].
  apply (rr_bind (fun a b => trel (fst a) (fst b) /\ snd a = snd b)); [apply turn_rr, H1|]. intros [t2 w] [u2 w'] [H2 E3]. cbn in H2, E3. subst w'.
  destruct (next_edge w edge lf fwd (point0 edge fwd) (point1 edge fwd) jedge) as [[[e1 lf1] fw1] j1]. pose proof H2 as [R2 [_ [_ [C2 [D2 _]]]]]. apply (rr_bind eq); [apply getw; exact R2|]. intros c ? <-. destruct (if j1 then c_jb c else c_ib c); [|apply IH, H2].
  apply (rr_bind trel); [rewrite C2, D2; destruct (_ && _)%bool; [apply erase_rr, H2|exact H2]|]. intros t3 u3 H3. apply IH, H3.
Qed.
Lemma zone_rr fuel p2 cl room t u : trel t u -> rr zrel (zone_crosser imax jmax centre fuel p2 cl room t) (zone_crosser imax jmax centre fuel p2 cl room u).
Proof. intros H. pose proof H as [_ [_ [_ [C [D _]]]]]. unfold zone_crosser. rewrite C, D. apply cross_rr, H. Qed.
Lemma seek_rr d e bit st fuel : rel whole d e -> forall k, rr eq (seek imax jmax fuel d bit st k) (seek imax jmax fuel e bit st k).
Proof. intro R. induction fuel as [|f IH]; intro k; [reflexivity|]. cbn [seek]. apply (rr_bind eq); [apply getw; exact R|]. intros c ? <-. destruct (bit c); [reflexivity|apply IH]. Qed.
Lemma place_rr fuel p2 two t u : trel t u -> rr (fun a b => trel (fst a) (fst b) /\ snd a = snd b) (next_place imax jmax fuel p2 two t) (next_place imax jmax fuel p2 two u).
Proof.
  intros H. pose proof H as [R [A [B [C [D E]]]]]. unfold next_place. rewrite B, C, E. destruct (p2 || _)%bool.
  - destruct two; [cbn; auto|]. apply (rr_bind eq); [apply getw; exact R|]. intros c ? <-. destruct (c_done c); [cbn; auto|]. apply (rr_bind eq); [apply seek_rr; exact R|]. intros e ? <-. apply (rr_bind (rel whole)); [destruct (_ && _)%bool; [apply changew, R|exact R]|]. intros d d' R'. cbn. split; [|reflexivity]. split; [exact R'|]. cbn. auto 6.
  - destruct (_ <=? _); [|cbn; auto]. apply (rr_bind (rel whole)); [apply changew, R|]. intros d d' R'. cbn. split; [|reflexivity]. split; [exact R'|]. cbn. auto 6.
Qed.
Lemma start_rr fuel two e0 l0 d e : rel whole d e -> rr eq (next_start imax jmax fuel two e0 l0 d) (next_start imax jmax fuel two e0 l0 e).
Proof.
  intro R. unfold next_start. destruct two.
  - apply (rr_bind eq); [apply getw; exact R|]. intros c ? <-. apply rr_refl.
  - apply (rr_bind eq); [apply seek_rr; exact R|]. intros k ? <-. apply (rr_bind eq); [apply getw; exact R|]. intros c ? <-. apply rr_refl.
Qed.
Definition crel (a b : tracer * Z * list (Z * Z)) : Prop := let '(t, n, p) := a in let '(u, n', p') := b in trel t u /\ n = n' /\ p = p'.
Lemma curve_rr fuel p2 room t u : trel t u -> rr crel (curve_tracer imax jmax centre fuel p2 room t) (curve_tracer imax jmax centre fuel p2 room u).
Proof.
  intros H. pose proof H as [R [A [B [C [D E]]]]]. unfold curve_tracer. rewrite C, D. apply (rr_bind eq); [apply getw; exact R|]. intros c ? <-. apply (rr_bind (fun a b => trel (fst a) (fst b) /\ snd a = snd b)); [apply place_rr, H|].
  intros [t1 o] [u1 o'] [H1 E1]. cbn in H1, E1. subst o'. destruct o as [place|]; [|cbn; auto]. pose proof H1 as [R1 [A1 [B1 [C1 [D1 E2]]]]]. rewrite D1. apply (rr_bind eq); [apply start_rr, R1|]. intros [[e0 l0] v0] ? <-.
  apply (rr_bind zrel). { apply zone_rr. split; [exact R1|]. cbn. rewrite A1, B1, E2. auto 6. }
  intros [[[t2 n] dn] p] [[[u2 n'] dn'] p'] [H2 [<- [<- <-]]]. pose proof H2 as [R2 [A2 [B2 [C2 [D2 E3]]]]]. destruct p2; [cbn; auto|]. destruct (_ && _)%bool.
  - apply (rr_bind (rel whole)); [apply changew, R2|]. intros d1 d1' Q1. apply (rr_bind (rel whole)); [apply changew, Q1|]. intros d2 d2' Q2. split; [|auto]. split; [exact Q2|]. cbn. auto 6.
  - rewrite E3. apply (rr_bind (rel whole)); [apply changew, R2|]. intros d1 d1' Q1. split; [|auto]. split; [exact Q1|]. cbn. auto 6.
Qed.
Lemma first_rr inner fuel : forall np nt t u, trel t u -> rr (fun a b => trel (fst (fst a)) (fst (fst b)) /\ snd (fst a) = snd (fst b) /\ snd a = snd b) (first_pass imax jmax centre fuel inner np nt t) (first_pass imax jmax centre fuel inner np nt u).
Proof.
  induction fuel as [|f IH]; intros np nt t u H; [reflexivity|]. cbn [first_pass]. apply (rr_bind crel); [apply curve_rr, H|]. intros [[t1 n] p] [[u1 n'] p'] [H1 [<- <-]]. destruct (n =? 0); [cbn; auto|]. destruct (0 <? n); apply IH, H1.
Qed.
Lemma second_rr inner np fuel : forall room cs t u, trel t u -> rr eq (second_pass imax jmax centre fuel inner np room cs t) (second_pass imax jmax centre fuel inner np room cs u).
Proof.
  induction fuel as [|f IH]; intros room cs t u H; [reflexivity|]. cbn [second_pass]. apply (rr_bind crel); [apply curve_rr, H|]. intros [[t1 n] p] [[u1 n'] p'] [H1 [<- <-]]. destruct (room <? n); [reflexivity|]. destruct (n =? 0); [reflexivity|]. destruct (0 <? n); [|reflexivity]. destruct (inside _ _); [|reflexivity]. apply IH, H1.
Qed.
End Run.
Lemma trace_mem imax jmax above centre fuel mem mem' : 0 <= imax -> 0 <= jmax -> cntr_trace imax jmax above centre fuel mem = cntr_trace imax jmax above centre fuel mem'.
Proof.
  intros Hi Hj. destruct (Z.eq_dec (imax * jmax) 0) as [E|N]; [rewrite !empty_trace by lia; reflexivity|]. assert (I1 : 1 <= imax) by nia. assert (J1 : 1 <= jmax) by nia.
  apply rr_eq. unfold cntr_trace. apply (rr_bind (trel imax jmax)); [apply data_init_rr; assumption|]. intros t u H. apply (rr_bind (fun a b => trel imax jmax (fst (fst a)) (fst (fst b)) /\ snd (fst a) = snd (fst b) /\ snd a = snd b)); [apply first_rr, H|].
  intros [[t1 a] b] [[u1 a'] b'] [H1 [E1 E2]]. cbn in H1, E1, E2. subst a' b'. apply (rr_bind eq); [apply second_rr, H1|]. intros cs ? <-. apply rr_refl.
Qed.

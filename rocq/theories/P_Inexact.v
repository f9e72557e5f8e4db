(** C151: small errors of positions, distances and radii do not change the tracks *)
From Coq Require Import Lia Permutation Qabs Lqa.
From Verif Require Import M_Base M_Tables S_Tracking S_Motion S_Region S_Shape S_Inexact P_Tracking P_Region P_Shape.
Open Scope Z_scope.

Lemma Qabs_bound a b : (Qabs a <= b)%Q -> (- b <= a /\ a <= b)%Q.
Proof. intro H. apply Qabs_Qle_condition, H. Qed.
Lemma Qabs_apart a b : (b < Qabs a)%Q -> (b < a \/ b < - a)%Q.
Proof. apply Qabs_case; intros; auto. Qed.

Theorem C151_small_errors_do_not_change_tracks : forall hav query hav' query', query_ok hav query -> query_ok hav' query' -> forall keep detect detect' fmt len nt tf delta rho,
  1 <= nt -> 0 < tf -> snapshots_ok detect 0 tf -> snapshots_ok detect' 0 tf ->
  (forall t f, 0 <= t < tf -> detect t = Ok f \/ detect' t = Ok f -> rows f <> [] /\ distinct_eddies f) ->
  (forall t r, 0 <= t < tf -> In r (found detect t) \/ In r (found detect' t) -> r_idx r = 0 -> has_radius r) ->
  inexact hav hav' detect detect' tf delta rho ->
  (forall t T i c rad, 0 < t < tf -> returns (time_tracking query keep detect true fmt len 0 (Some t) nt) T -> eddy_with detect t i c rad -> decided hav (rows T) c rad delta rho) ->
  exists R R' name,
    returns (time_tracking query keep detect true fmt len 0 (Some tf) nt) R /\ Permutation (rows R) (history detect name tf) /\
    returns (time_tracking query' keep detect' true fmt len 0 (Some tf) nt) R' /\ Permutation (rows R') (history detect' name tf).
Proof.
  intros hav query hav' query' Hq Hq' keep detect detect' fmt len nt tf delta rho Hnt Htf So So' Hd Hr Ix De. pose proof (ix_delta _ _ _ _ _ _ _ Ix) as D0.
  assert (Wp : forall d t i c rad, eddy_with d t i c rad -> placed d t i c) by (intros d t i c rad (r & A1 & A2 & A3 & A4 & _); exists r; auto).
  apply (same_tracks hav query hav' query' Hq Hq'); try assumption.
  - apply (ix_eddies _ _ _ _ _ _ _ Ix).
  - intros t T i c rad c' rad' s j k p p' Ht HT Hs W W' P P' L. destruct (De t T i c rad Ht HT W k p L) as [Far _]. apply Qabs_apart in Far.
    pose proof (Qabs_bound _ _ (ix_distances _ _ _ _ _ _ _ Ix s t i j c c' p p' Hs ltac:(lia) (Wp _ _ _ _ _ W) (Wp _ _ _ _ _ W') P P')) as [A1 A2]. pose proof (Qabs_bound _ _ (ix_radii _ _ _ _ _ _ _ Ix t i c rad c' rad' ltac:(lia) W W')) as [B1 B2].
    unfold reaches. revert Far A1 A2 B1 B2. generalize (hav c p) (hav' c' p'). intros h h' Far A1 A2 B1 B2. split; intro X; destruct Far; lra.
  - intros t T i c c' s1 j k p p' s2 j2 k2 q q' Ht HT H1 H2 C C' P P' Q_ Q' L L' N Le.
    assert (W : exists rad, eddy_with detect t i c rad) by (destruct C as (r & A1 & A2 & A3 & A4); destruct (Hr t r ltac:(lia) (or_introl A1) A3) as (rad & E); exists rad, r; auto 6). destruct W as (rad & W).
    destruct (De t T i c rad Ht HT W k p L) as [_ Df]. destruct (Df k2 q L') as [_ Df2]. specialize (Df2 N). apply Qabs_apart in Df2.
    pose proof (Qabs_bound _ _ (ix_distances _ _ _ _ _ _ _ Ix s1 t i j c c' p p' H1 ltac:(lia) C C' P P')) as [A1 A2]. pose proof (Qabs_bound _ _ (ix_distances _ _ _ _ _ _ _ Ix s2 t i j2 c c' q q' H2 ltac:(lia) C C' Q_ Q')) as [B1 B2].
    revert Df2 A1 A2 B1 B2 Le. generalize (hav c p) (hav' c' p') (hav c q) (hav' c' q'). intros h h' g g' Df2 A1 A2 B1 B2 Le. destruct Df2; lra.
  - intros t T r c Ht HT H I Pc k k' p p' L L'. destruct (Hr t r ltac:(lia) (or_introl H) I) as (rad & E). assert (W : eddy_with detect t (r_id r) c rad) by (exists r; auto 6).
    destruct (De t T (r_id r) c rad Ht HT W k p L) as [_ Df]. destruct (Df k' p' L') as [X Y]. split; [exact X|]. intros N Eq. specialize (Y N). apply Qabs_apart in Y. revert Y Eq. generalize (hav c p) (hav c p'). intros h g Y Eq. destruct Y; lra.
Qed.
Print Assumptions C151_small_errors_do_not_change_tracks.

(** Three steps of two drifting eddies, a third one at step 2; the inexact positions are off by 1/20 degree at step 1, the inexact radii by 1 km. *)
From Verif Require Import L_Witness.
Definition demo_inexact (t : Z) : res frame :=
  Ok (snap 101 ([(0, inject_Z t * (1 # 2) + (if (t =? 1)%Z then 1 # 20 else 0)); (10, 50 + inject_Z t * (1 # 2) + (if (t =? 1)%Z then 1 # 20 else 0))] ++ (if (t =? 2)%Z then [(40, 7)] else []))%Q).
Example C151_case : query_ok demo_hav demo_query /\ snapshots_ok demo 0 3 /\ snapshots_ok demo_inexact 0 3 /\
  (forall t f, 0 <= t < 3 -> demo t = Ok f \/ demo_inexact t = Ok f -> rows f <> [] /\ distinct_eddies f) /\
  (forall t r, 0 <= t < 3 -> In r (found demo t) \/ In r (found demo_inexact t) -> r_idx r = 0 -> has_radius r) /\
  inexact demo_hav demo_hav demo demo_inexact 3 (1 # 1000) 1 /\
  (forall t T i c rad, 0 < t < 3 -> returns (time_tracking demo_query false demo true "csv" 3 0 (Some t) 1) T -> eddy_with demo t i c rad -> decided demo_hav (rows T) c rad (1 # 1000) 1).
Proof.
  assert (T3 : forall t, 0 <= t < 3 -> t = 0 \/ t = 1 \/ t = 2) by lia.
  assert (Pd : forall d t i c, placed d t i c -> exists r, In r (found d t) /\ r_id r = i /\ maxima_y (r_cols r) = Num (fst c) /\ maxima_x (r_cols r) = Num (snd c)) by (intros d t i c (r & A & B & _ & C); exists r; destruct C; auto).
  split; [exact demo_ok|]. split; [apply demo_ok_all|]. split; [intros t _; eexists; split; [reflexivity|apply snap_ok]|].
  split; [|split; [|split]].
  - intros t f _ [H|H]; injection H as <-; (split; [discriminate|apply snap_distinct]).
  - intros t r Ht H _. destruct (T3 t Ht) as [->|[->| ->]]; destruct H as [H|H]; cbn in H; repeat (destruct H as [<-|H]; [eexists; reflexivity|]); destruct H.
  - constructor.
    + discriminate.
    + intros t i Ht. unfold eddy_at. destruct (T3 t Ht) as [->|[->| ->]]; split; intros (r & H & <-); cbn in H; repeat (destruct H as [<-|H]; [first [eexists; split; [left; reflexivity|reflexivity]|eexists; split; [right; left; reflexivity|reflexivity]|eexists; split; [right; right; left; reflexivity|reflexivity]]|]); destruct H.
    + intros s t i j [c1 c2] [d1 d2] [p1 p2] [q1 q2] Hs Ht P1 P2 P3 P4. apply Pd in P1 as (r1 & A1 & A2 & A3 & A4), P2 as (r2 & B1 & B2 & B3 & B4), P3 as (r3 & C1 & C2 & C3 & C4), P4 as (r4 & D1 & D2 & D3 & D4).
      assert (Tt : t = 1 \/ t = 2) by lia. assert (Ts : s = 0 \/ s = 1) by lia. cbn [fst snd] in *.
      destruct Tt as [->| ->], Ts as [->| ->]; try lia; cbn in A1, B1, C1, D1;
        repeat (destruct A1 as [<-|A1]; [|]); try (destruct A1; fail); repeat (destruct B1 as [<-|B1]; [|]); try (destruct B1; fail); cbn in A2, B2; try congruence;
        repeat (destruct C1 as [<-|C1]; [|]); try (destruct C1; fail); repeat (destruct D1 as [<-|D1]; [|]); try (destruct D1; fail); cbn in C2, D2; try congruence;
        cbn in A3, A4, B3, B4, C3, C4, D3, D4; injection A3 as <-; injection A4 as <-; injection B3 as <-; injection B4 as <-; injection C3 as <-; injection C4 as <-; injection D3 as <-; injection D4 as <-; vm_compute; discriminate.
    + intros t i c rad c' rad' Ht (r & A & _ & _ & _ & B) (r' & A' & _ & _ & _ & B').
      assert (rad = 100%Q) by (destruct (T3 t Ht) as [->|[->| ->]]; cbn in A; repeat (destruct A as [<-|A]; [cbn in B; congruence|]); destruct A). assert (rad' = 101%Q) by (destruct (T3 t Ht) as [->|[->| ->]]; cbn in A'; repeat (destruct A' as [<-|A']; [cbn in B'; congruence|]); destruct A').
      subst. vm_compute. discriminate.
  - intros t T i [c1 c2] rad Ht HT (r & H & _ & _ & (Y & X) & Rd). assert (Tt : t = 1 \/ t = 2) by lia. cbn [fst snd] in Y, X.
    assert (L : exists p0 p1, (forall k p, latest_position (rows T) k p -> (k = 0 /\ p = p0) \/ (k = 1 /\ p = p1)) /\
      forall c, (exists r, In r (found demo t) /\ position_of r c) -> (6371 * (1 # 1000) + 1 < Qabs (demo_hav c p0 * 6371 - 100))%Q /\ (6371 * (1 # 1000) + 1 < Qabs (demo_hav c p1 * 6371 - 100))%Q /\ (2 * (1 # 1000) < Qabs (demo_hav c p0 - demo_hav c p1))%Q /\ (2 * (1 # 1000) < Qabs (demo_hav c p1 - demo_hav c p0))%Q).
    { destruct Tt as [->| ->]; vm_compute in HT; injection HT as <-; cbn [rows].
      - eexists (0, _)%Q, (10, _)%Q. split.
        + intros k [p1 p2] (x & Hx & Kx & _ & Yx & Xx & _). destruct Hx as [<-|[<-|[]]]; cbn in Kx, Yx, Xx; injection Yx as <-; injection Xx as <-; [left|right]; (split; [symmetry; exact Kx|reflexivity]).
        + intros [d1 d2] (r0 & H0 & Y0 & X0). cbn in H0. repeat (destruct H0 as [<-|H0]; [cbn in Y0, X0; injection Y0 as <-; injection X0 as <-; vm_compute; repeat split|]); destruct H0.
      - eexists (0, _)%Q, (10, _)%Q. split.
        + intros k [p1 p2] (x & Hx & Kx & _ & Yx & Xx & Lx). cbn [In] in Hx.
          repeat (destruct Hx as [<-|Hx]; [cbn in Kx; first [exfalso; specialize (Lx _ (or_intror (or_introl eq_refl))); cbn in Lx; lia|exfalso; specialize (Lx _ (or_intror (or_intror (or_intror (or_introl eq_refl))))); cbn in Lx; lia|cbn in Yx, Xx; injection Yx as <-; injection Xx as <-; first [left; split; [symmetry; exact Kx|reflexivity]|right; split; [symmetry; exact Kx|reflexivity]]]|]). destruct Hx.
        + intros [d1 d2] (r0 & H0 & Y0 & X0). cbn in H0. repeat (destruct H0 as [<-|H0]; [cbn in Y0, X0; injection Y0 as <-; injection X0 as <-; vm_compute; repeat split|]); destruct H0. }
    assert (rad = 100%Q) by (destruct Tt as [->| ->]; cbn in H; repeat (destruct H as [<-|H]; [cbn in Rd; congruence|]); destruct H). subst rad.
    destruct L as (p0 & p1 & L & Df). destruct (Df (c1, c2) (ex_intro _ r (conj H (conj Y X)))) as (D1 & D2 & D3 & D4). intros k p A. split; [apply L in A as [[-> ->]|[-> ->]]; assumption|].
    intros k' p' B. apply L in A as [[-> ->]|[-> ->]]; apply L in B as [[-> ->]|[-> ->]]; (split; [intro E; first [reflexivity|discriminate E]|intro E; first [exfalso; apply E; reflexivity|assumption]]).
Qed.

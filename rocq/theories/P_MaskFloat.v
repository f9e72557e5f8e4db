(** C142: the sign and the extremum inside a contour, with a mean computed in floating point *)
From Coq Require Import Reals QArith Qreals List Permutation Lia Lra.
Import ListNotations.
From Flocq Require Import Core Plus_error Relative.
From Verif Require Import M_Base M_Detect M_Window S_Detect S_Window L_Window L_Window2 M_MaskFloat S_MaskFloat P_Window.
Local Open Scope R_scope.

(** *** the mask with any sign *)
Lemma mask_in_exact cells data : mask_data_in (fun l => nsign (nnanmean l)) cells data = mask_data cells data.
Proof. reflexivity. Qed.
Lemma mask_in_spec sgn_of ny nx cells data mask s v i j : rectangular ny nx data -> (0 < ny)%nat -> (0 < nx)%nat -> cells_within ny nx cells ->
  mask_data_in sgn_of cells data = Ok (mask, s, (v, i, j)) ->
  exists flat sq q, numbers flat = values_inside ny nx data mask /\ s = sgn_of flat /\ s = Num sq /\ value_at data mask i j q /\ v = Num (sq * (sq * q))%Q /\
  forall i' j' q', value_at data mask i' j' q' -> (sq * q' <= sq * q)%Q /\ (before (i', j') (i, j) -> (sq * q' < sq * q)%Q).
Proof.
  intros R Hny Hnx Hc. pose proof R as [R1 R2]. unfold mask_data_in. rewrite R1.
  assert (E : match data with r :: _ => length r | [] => O end = nx).
  { destruct data as [|r g]; [cbn in R1; lia|]. inversion R2. assumption. }
  rewrite E. rewrite np_cells_within by exact Hc.
  destruct (fill_holes_spec ny nx (fun i j => existsb (cell_eqb (i, j)) (map (fun c => (Z.to_nat (fst c), Z.to_nat (snd c))) cells))) as [mask' [F _]].
  rewrite F. cbn [bind].
  set (cellv := fun i j => match at_ mask' i j, at_ data i j with Some true, Some x => x | _, _ => NaN end).
  set (flat := List.concat (tabulate ny nx cellv)). cbv zeta.
  assert (HV : numbers flat = values_inside ny nx data mask').
  { unfold numbers, flat. rewrite (flat_map_flat_map cellv). unfold values_inside. apply flat_map_ext'. intro a. apply flat_map_ext'. intro b.
    unfold cellv. destruct (at_ mask' a b) as [[|]|]; [|reflexivity|reflexivity]. destruct (at_ data a b) as [[|q]|]; reflexivity. }
  assert (HF : forall k, nth_error flat k = at_ (tabulate ny nx cellv) (Nat.div k nx) (Nat.modulo k nx)).
  { intro k. apply nth_error_concat; [apply tabulate_rect|exact Hnx]. }
  pose proof (nan_argmax_0 (map (nmul (sgn_of flat)) flat)) as HA. destruct (nan_argmax _ 0 None) as [[b k]|]; [|discriminate].
  intro EQ. assert (mask' = mask) as -> by congruence. assert (Es : s = sgn_of flat) by congruence. assert (Ev : v = nmul (sgn_of flat) (Num b)) by congruence. assert (Ei : i = Nat.div k nx) by congruence. assert (Ej : j = Nat.modulo k nx) by congruence. clear EQ.
  destruct HA as [HA1 HA2]. rewrite nth_error_map in HA1. destruct (nth_error flat k) as [x|] eqn:Ek; [|discriminate]. cbn [option_map] in HA1.
  destruct (sgn_of flat) as [|sq] eqn:Sq; [destruct x; discriminate|]. destruct x as [|q]; [discriminate|]. assert (b = (sq * q)%Q) as -> by (cbn in HA1; congruence).
  exists flat, sq, q. split; [exact HV|]. split; [congruence|]. split; [exact Es|]. rewrite HF, at_tabulate in Ek.
  split; [|split; [exact Ev|]].
  { destruct (_ && _)%bool; [|discriminate]. injection Ek as Ek. unfold cellv in Ek. unfold value_at. subst i j.
    destruct (at_ mask _ _) as [[|]|]; try discriminate. destruct (at_ data _ _); [|discriminate]. rewrite Ek. auto. }
  intros i' j' q' [V1 V2]. assert (Hij : (i' < ny /\ j' < nx)%nat) by (apply (rect_at ny nx data i' j' R); eauto).
  destruct (flat_ravel nx i' j' (proj2 Hij)) as [D1 D2].
  assert (N : nth_error (map (nmul (Num sq)) flat) (i' * nx + j') = Some (Num (sq * q'))).
  { rewrite nth_error_map, HF, D1, D2, at_tabulate. rewrite (proj2 (Nat.ltb_lt i' ny)), (proj2 (Nat.ltb_lt j' nx)) by apply Hij.
    cbn [andb option_map]. unfold cellv. rewrite V1, V2. reflexivity. }
  destruct (HA2 _ _ N) as [B1 B2]. split; [exact B1|]. intro HB. apply B2. unfold before in HB. cbn [fst snd] in HB. subst i j.
  pose proof (Nat.div_mod k nx ltac:(lia)). pose proof (Nat.mod_upper_bound k nx ltac:(lia)). destruct HB as [HB|[HB1 HB2]].
  - assert (i' * nx + nx <= (k / nx) * nx)%nat by (replace (i' * nx + nx)%nat with ((S i') * nx)%nat by lia; apply Nat.mul_le_mono_r; lia). lia.
  - rewrite <- HB1 in H. lia.
Qed.

(** *** sums *)
Lemma total_app l1 l2 : total (l1 ++ l2) = total l1 + total l2.
Proof. unfold total. induction l1 as [|x l IH]; cbn [app fold_right]; [lra|]. rewrite IH. lra. Qed.
Lemma total_abs_app l1 l2 : total_abs (l1 ++ l2) = total_abs l1 + total_abs l2.
Proof. unfold total_abs. induction l1 as [|x l IH]; cbn [app fold_right]; [lra|]. rewrite IH. lra. Qed.
Lemma total_perm l l' : Permutation l l' -> total l = total l'.
Proof. unfold total. induction 1; cbn [fold_right]; lra. Qed.
Lemma total_abs_perm l l' : Permutation l l' -> total_abs l = total_abs l'.
Proof. unfold total_abs. induction 1; cbn [fold_right]; lra. Qed.
Lemma total_abs_pos l : 0 <= total_abs l.
Proof. unfold total_abs. induction l as [|x l IH]; cbn [fold_right]; [lra|]. pose proof (Rabs_pos x). lra. Qed.
Lemma total_le_abs l : Rabs (total l) <= total_abs l.
Proof. unfold total, total_abs. induction l as [|x l IH]; cbn [fold_right]; [rewrite Rabs_R0; lra|]. eapply Rle_trans; [apply Rabs_triang|]. lra. Qed.

Section Format.
Variable f : format.
Hypothesis Hf : proper_format f.
Let prec := f_prec f.
Let emin := f_emin f.
Local Instance prec_pos : Prec_gt_0 prec.
Proof. unfold Prec_gt_0, prec. destruct Hf. lia. Qed.
Definition in_format (x : R) : Prop := generic_format radix2 (FLT_exp emin prec) x.
Lemma rnd_format x : in_format (rnd f x).
Proof. apply generic_format_round; [apply FLT_exp_valid, prec_pos|apply valid_rnd_N]. Qed.
Lemma rnd_mono x y : x <= y -> rnd f x <= rnd f y.
Proof. apply round_le; [apply FLT_exp_valid, prec_pos|apply valid_rnd_N]. Qed.
Lemma rnd_id x : in_format x -> rnd f x = x.
Proof. apply round_generic, valid_rnd_N. Qed.
Lemma rnd_0 : rnd f 0 = 0.
Proof. apply round_0, valid_rnd_N. Qed.
Lemma rnd_opp x : rnd f (- x) = - rnd f x.
Proof. apply round_NE_opp. Qed.
Lemma format_0 : in_format 0.
Proof. apply generic_format_0. Qed.
Lemma number_format x : number_of f x -> in_format x.
Proof.
  intros (_ & m & e & -> & Hm & He). apply generic_format_FLT. exists (Float radix2 m e); [reflexivity|exact Hm|exact He].
Qed.
Lemma format_eta : in_format (bpow radix2 emin).
Proof.
  apply generic_format_bpow. unfold FLT_exp. pose proof prec_pos as P. unfold Prec_gt_0 in P. lia.
Qed.
Let u := unit_roundoff f.
Lemma u_pos : 0 < u.
Proof. apply bpow_gt_0. Qed.
Lemma rnd_add x y : in_format x -> in_format y -> exists eps, Rabs eps <= u /\ rnd f (x + y) = (x + y) * (1 + eps).
Proof.
  intros Hx Hy. destruct (FLT_plus_error_N_ex radix2 emin prec (fun x => negb (Z.even x)) x y Hx Hy) as (eps & He & E). exists eps. split; [|exact E].
  eapply Rle_trans; [exact He|]. unfold u_ro. replace (/ 2 * bpow radix2 (- prec + 1)) with u.
  - pose proof u_pos as P. apply Rmult_le_reg_r with (1 + u); [lra|]. unfold Rdiv. rewrite Rmult_assoc, Rinv_l by lra. nra.
  - unfold u, unit_roundoff. fold prec. rewrite bpow_plus. replace (bpow radix2 1) with 2 by (cbn; lra). lra.
Qed.

(** The error of a sum *)
Lemma summed_error l s : summed f l s -> Forall (number_of f) l -> (1 + u) ^ length l * total_abs l < bpow radix2 (f_emax f) ->
  exists x, s = XFin x /\ in_format x /\ Rabs (x - total l) <= ((1 + u) ^ (length l - 1) - 1) * total_abs l.
Proof.
  intros HS. pose proof u_pos as U. induction HS as [|x|l l1 l2 a b P S1 IH1 S2 IH2]; intros HN HB.
  - exists 0. split; [reflexivity|]. split; [apply format_0|]. cbn. rewrite Rminus_0_r, Rabs_R0. lra.
  - exists x. split; [reflexivity|]. split; [inversion HN; apply number_format; assumption|]. cbn. replace (x - (x + 0)) with 0 by lra. rewrite Rabs_R0. lra.
  - assert (HN' : Forall (number_of f) (l1 ++ l2)) by (apply Forall_forall; intros y Hy; rewrite Forall_forall in HN; apply HN; eapply Permutation_in; [apply Permutation_sym, P|exact Hy]).
    apply Forall_app in HN'. destruct HN' as [N1 N2].
    assert (L : length l = (length l1 + length l2)%nat) by (rewrite (Permutation_length P); apply app_length).
    assert (T : total l = total l1 + total l2) by (rewrite (total_perm _ _ P); apply total_app).
    assert (A : total_abs l = total_abs l1 + total_abs l2) by (rewrite (total_abs_perm _ _ P); apply total_abs_app).
    pose proof (total_abs_pos l1) as A1. pose proof (total_abs_pos l2) as A2.
    assert (M : forall p q, (p <= q)%nat -> (1 + u) ^ p <= (1 + u) ^ q) by (intros p q H; apply Rle_pow; [lra|exact H]).
    assert (M1 : forall p, 1 <= (1 + u) ^ p) by (intro p; apply pow_R1_Rle; lra).
    destruct IH1 as (x & -> & Fx & E1); [exact N1| |].
    { eapply Rle_lt_trans; [|exact HB]. apply Rmult_le_compat; [pose proof (M1 (length l1)); lra|lra|apply M; lia|lra]. }
    destruct IH2 as (y & -> & Fy & E2); [exact N2| |].
    { eapply Rle_lt_trans; [|exact HB]. apply Rmult_le_compat; [pose proof (M1 (length l2)); lra|lra|apply M; lia|lra]. }
    cbn [xadd].
    assert (ERR : Rabs (rnd f (x + y) - total l) <= ((1 + u) ^ (length l - 1) - 1) * total_abs l).
    { destruct l1 as [|z1 t1].
      - cbn in E1. assert (x = 0). { cbn in E1. destruct (Req_dec x 0) as [->|N]; [reflexivity|]. exfalso. apply Rabs_pos_lt in N. replace (x - 0) with x in E1 by lra. lra. }
        subst x. rewrite Rplus_0_l, (rnd_id y Fy). rewrite T, A, L. cbn [length Nat.add total total_abs fold_right] in *. rewrite !Rplus_0_l. exact E2.
      - destruct l2 as [|z2 t2].
        + cbn in E2. assert (y = 0). { destruct (Req_dec y 0) as [->|N]; [reflexivity|]. exfalso. apply Rabs_pos_lt in N. replace (y - 0) with y in E2 by lra. lra. }
          subst y. rewrite Rplus_0_r, (rnd_id x Fx). rewrite T, A, L. replace (length (z1 :: t1) + length (@nil R))%nat with (length (z1 :: t1)) by (cbn; lia). unfold total at 2, total_abs at 2. cbn [fold_right]. rewrite !Rplus_0_r. exact E1.
        + destruct (rnd_add x y Fx Fy) as (eps & He & ->). set (n1 := length (z1 :: t1)) in *. set (n2 := length (z2 :: t2)) in *.
          assert (Q1 : (1 + u) ^ (n1 - 1) <= (1 + u) ^ (length l - 2)) by (apply M; rewrite L; unfold n2; cbn; lia).
          assert (Q2 : (1 + u) ^ (n2 - 1) <= (1 + u) ^ (length l - 2)) by (apply M; rewrite L; unfold n1; cbn; lia).
          assert (Q3 : (1 + u) ^ (length l - 1) = (1 + u) * (1 + u) ^ (length l - 2)) by (replace (length l - 1)%nat with (S (length l - 2)) by (rewrite L; unfold n1, n2; cbn; lia); reflexivity).
          rewrite Q3. set (c := (1 + u) ^ (length l - 2)) in *. pose proof (M1 (length l - 2)%nat) as C1. fold c in C1.
          assert (B1 : Rabs (x - total (z1 :: t1)) <= (c - 1) * total_abs (z1 :: t1)) by (eapply Rle_trans; [exact E1|]; apply Rmult_le_compat_r; [exact A1|lra]).
          assert (B2 : Rabs (y - total (z2 :: t2)) <= (c - 1) * total_abs (z2 :: t2)) by (eapply Rle_trans; [exact E2|]; apply Rmult_le_compat_r; [exact A2|lra]).
          pose proof (total_le_abs l) as TL. rewrite T, A in *. set (X := total (z1 :: t1)) in *. set (Y := total (z2 :: t2)) in *. set (SX := total_abs (z1 :: t1)) in *. set (SY := total_abs (z2 :: t2)) in *.
          replace ((x + y) * (1 + eps) - (X + Y)) with (((x - X) + (y - Y)) * (1 + eps) + (X + Y) * eps) by ring.
          eapply Rle_trans; [apply Rabs_triang|]. rewrite !Rabs_mult.
          assert (G1 : Rabs ((x - X) + (y - Y)) <= (c - 1) * (SX + SY)) by (eapply Rle_trans; [apply Rabs_triang|]; lra).
          assert (G2 : Rabs (1 + eps) <= 1 + u) by (eapply Rle_trans; [apply Rabs_triang|]; rewrite Rabs_R1; lra).
          assert (H1 : Rabs ((x - X) + (y - Y)) * Rabs (1 + eps) <= (c - 1) * (SX + SY) * (1 + u)) by (apply Rmult_le_compat; [apply Rabs_pos|apply Rabs_pos|exact G1|exact G2]).
          assert (H2 : Rabs (X + Y) * Rabs eps <= (SX + SY) * u) by (apply Rmult_le_compat; [apply Rabs_pos|apply Rabs_pos|exact TL|exact He]).
          lra. }
    exists (rnd f (x + y)). split; [|split; [apply rnd_format|exact ERR]]. unfold xround.
    destruct (Rle_lt_dec (bpow radix2 (f_emax f)) (Rabs (rnd f (x + y)))) as [G|_]; [exfalso|reflexivity].
    assert (B : Rabs (rnd f (x + y)) <= (1 + u) ^ (length l - 1) * total_abs l).
    { replace (rnd f (x + y)) with ((rnd f (x + y) - total l) + total l) by lra. eapply Rle_trans; [apply Rabs_triang|]. pose proof (total_le_abs l). lra. }
    assert ((1 + u) ^ (length l - 1) * total_abs l <= (1 + u) ^ length l * total_abs l) by (apply Rmult_le_compat_r; [apply total_abs_pos|apply M; lia]). lra.
Qed.

Lemma sign_pos x n : (0 < n)%nat -> INR n * bpow radix2 emin <= x -> xsign (xdiv f (XFin x) n) = Num 1.
Proof.
  intros Hn H. cbn [xdiv xsign]. assert (0 < INR n) by (apply lt_0_INR; exact Hn). assert (0 < rnd f (x / INR n)).
  { apply Rlt_le_trans with (bpow radix2 emin); [apply bpow_gt_0|]. rewrite <- (rnd_id _ format_eta). apply rnd_mono. apply Rmult_le_reg_r with (INR n); [assumption|]. unfold Rdiv. rewrite Rmult_assoc, Rinv_l by lra. lra. }
  destruct (Rlt_dec 0 (rnd f (x / INR n))); [reflexivity|contradiction].
Qed.
Lemma sign_neg x n : (0 < n)%nat -> x <= - (INR n * bpow radix2 emin) -> xsign (xdiv f (XFin x) n) = Num (-1).
Proof.
  intros Hn H. cbn [xdiv xsign]. assert (0 < INR n) by (apply lt_0_INR; exact Hn). assert (0 < rnd f (- x / INR n)).
  { apply Rlt_le_trans with (bpow radix2 emin); [apply bpow_gt_0|]. rewrite <- (rnd_id _ format_eta). apply rnd_mono. apply Rmult_le_reg_r with (INR n); [assumption|]. unfold Rdiv. rewrite Rmult_assoc, Rinv_l by lra. lra. }
  replace (- x / INR n) with (- (x / INR n)) in H1 by (unfold Rdiv; ring). rewrite rnd_opp in H1.
  destruct (Rlt_dec 0 (rnd f (x / INR n))); [lra|]. destruct (Rlt_dec (rnd f (x / INR n)) 0); [reflexivity|lra].
Qed.
Lemma clear_sign l s : summed f l s -> Forall (number_of f) l -> clear_sum f l -> l <> [] ->
  (0 < total l /\ xsign (xdiv f s (length l)) = Num 1) \/ (total l < 0 /\ xsign (xdiv f s (length l)) = Num (-1)).
Proof.
  intros HS HN [C1 C2] Hne. destruct (summed_error l s HS HN C2) as (x & -> & _ & E). fold u in C1, E. set (e := ((1 + u) ^ (length l - 1) - 1) * total_abs l) in *.
  assert (Hn : (0 < length l)%nat) by (destruct l; [congruence|cbn; lia]).
  assert (P : 0 <= INR (length l) * bpow radix2 emin) by (apply Rmult_le_pos; [apply pos_INR|apply bpow_ge_0]). fold emin in C1. pose proof (Rabs_pos (x - total l)) as Q.
  destruct (Rle_lt_dec 0 (total l)) as [G|G].
  - left. rewrite (Rabs_pos_eq _ G) in C1. split; [lra|]. apply sign_pos; [exact Hn|]. apply Rabs_le_inv in E. lra.
  - right. rewrite (Rabs_left _ G) in C1. split; [exact G|]. apply sign_neg; [exact Hn|]. apply Rabs_le_inv in E. lra.
Qed.

(** Values of one sign: any order, also with overflow *)
Lemma summed_nonneg l s : summed f l s -> Forall (fun x => in_format x /\ 0 <= x) l ->
  s = XInf false \/ exists x, s = XFin x /\ in_format x /\ 0 <= x /\ forall y, In y l -> y <= x.
Proof.
  intro HS. induction HS as [|x|l l1 l2 a b P S1 IH1 S2 IH2]; intro HN.
  - right. exists 0. split; [reflexivity|]. split; [apply format_0|]. split; [lra|]. intros y [].
  - right. exists x. inversion HN as [|? ? [F G]]. subst. split; [reflexivity|]. split; [exact F|]. split; [exact G|]. intros y [<-|[]]. lra.
  - assert (HN' : Forall (fun x => in_format x /\ 0 <= x) (l1 ++ l2)) by (apply Forall_forall; intros y Hy; rewrite Forall_forall in HN; apply HN; eapply Permutation_in; [apply Permutation_sym, P|exact Hy]).
    apply Forall_app in HN'. destruct HN' as [N1 N2]. destruct (IH1 N1) as [->|(x & -> & Fx & Gx & Mx)], (IH2 N2) as [->|(y & -> & Fy & Gy & My)]; [left; reflexivity|left; reflexivity|left; reflexivity|].
    cbn [xadd]. unfold xround. destruct (Rle_lt_dec _ _) as [_|_]; [left; destruct (Rlt_dec (x + y) 0); [lra|reflexivity]|].
    right. exists (rnd f (x + y)). split; [reflexivity|]. split; [apply rnd_format|].
    assert (GX : x <= rnd f (x + y)) by (rewrite <- (rnd_id x Fx) at 1; apply rnd_mono; lra).
    assert (GY : y <= rnd f (x + y)) by (rewrite <- (rnd_id y Fy) at 1; apply rnd_mono; lra).
    split; [lra|]. intros z Hz. apply (Permutation_in _ P), in_app_or in Hz. destruct Hz as [Hz|Hz]; [pose proof (Mx z Hz); lra|pose proof (My z Hz); lra].
Qed.
Lemma xadd_opp a b : xadd f (match a with XFin x => XFin (- x) | XInf n => XInf (negb n) | XNan => XNan end) (match b with XFin x => XFin (- x) | XInf n => XInf (negb n) | XNan => XNan end) =
  match xadd f a b with XFin x => XFin (- x) | XInf n => XInf (negb n) | XNan => XNan end.
Proof.
  destruct a as [|x|n], b as [|y|m]; cbn [xadd]; try reflexivity.
  - unfold xround. replace (- x + - y) with (- (x + y)) by ring. rewrite rnd_opp, Rabs_Ropp. destruct (Rle_lt_dec _ _) as [G|_]; [|reflexivity].
    destruct (Rlt_dec (- (x + y)) 0), (Rlt_dec (x + y) 0); try reflexivity; try lra. exfalso. assert (x + y = 0) as E by lra. rewrite E, rnd_0, Rabs_R0 in G. pose proof (bpow_gt_0 radix2 (f_emax f)). lra.
  - destruct n, m; reflexivity.
Qed.
Lemma summed_opp l s : summed f l s -> summed f (map Ropp l) (match s with XFin x => XFin (- x) | XInf n => XInf (negb n) | XNan => XNan end).
Proof.
  induction 1 as [|x|l l1 l2 a b P S1 IH1 S2 IH2].
  - rewrite Ropp_0. constructor.
  - constructor.
  - rewrite <- xadd_opp. apply sum_two with (map Ropp l1) (map Ropp l2); [rewrite <- map_app; apply Permutation_map, P|exact IH1|exact IH2].
Qed.
Lemma in_format_opp x : in_format x -> in_format (- x).
Proof. apply generic_format_opp. Qed.
Lemma one_sign_pos l s : summed f l s -> Forall (fun x => in_format x /\ 0 <= x) l -> (exists x, In x l /\ INR (length l) * bpow radix2 emin <= x) -> xsign (xdiv f s (length l)) = Num 1.
Proof.
  intros HS HN (x & I & G). destruct (summed_nonneg l s HS HN) as [->|(z & -> & _ & _ & M)]; [reflexivity|]. apply sign_pos; [destruct l; [destruct I|cbn; lia]|]. pose proof (M x I). lra.
Qed.
Lemma one_sign_neg l s : summed f l s -> Forall (fun x => in_format x /\ x <= 0) l -> (exists x, In x l /\ x <= - (INR (length l) * bpow radix2 emin)) -> xsign (xdiv f s (length l)) = Num (-1).
Proof.
  intros HS HN (x & I & G). pose proof (summed_opp l s HS) as HO.
  destruct (summed_nonneg _ _ HO) as [E|(z & E & _ & _ & M)].
  - apply Forall_forall. intros y Hy. apply in_map_iff in Hy. destruct Hy as (w & <- & Hw). rewrite Forall_forall in HN. destruct (HN w Hw). split; [apply in_format_opp; assumption|lra].
  - destruct s as [|y|[|]]; try discriminate. reflexivity.
  - destruct s as [|y|[|]]; try discriminate. assert (z = - y) as -> by congruence. apply sign_neg; [destruct l; [destruct I|cbn; lia]|]. pose proof (M (- x) (in_map _ _ _ I)). lra.
Qed.
Lemma summed_zero l s : summed f l s -> Forall (fun x => x = 0) l -> s = XFin 0.
Proof.
  intro HS. induction HS as [|x|l l1 l2 a b P S1 IH1 S2 IH2]; intro HN; [reflexivity|inversion HN; subst; reflexivity|].
  assert (HN' : Forall (fun x => x = 0) (l1 ++ l2)) by (apply Forall_forall; intros y Hy; rewrite Forall_forall in HN; apply HN; eapply Permutation_in; [apply Permutation_sym, P|exact Hy]).
  apply Forall_app in HN'. destruct HN' as [N1 N2]. rewrite (IH1 N1), (IH2 N2). cbn [xadd]. rewrite Rplus_0_r. unfold xround. rewrite rnd_0, Rabs_R0. destruct (Rle_lt_dec _ _) as [G|_]; [|reflexivity]. pose proof (bpow_gt_0 radix2 (f_emax f)). lra.
Qed.
Lemma sign_zero n : xsign (xdiv f (XFin 0) n) = Num 0.
Proof. cbn [xdiv xsign]. unfold Rdiv. rewrite Rmult_0_l, rnd_0. destruct (Rlt_dec 0 0); [lra|]. destruct (Rlt_dec 0 0); [lra|reflexivity]. Qed.
End Format.

Lemma inside_numbers f ny nx data mask : rectangular ny nx data -> field_of f data -> Forall (number_of f) (map Q2R (values_inside ny nx data mask)).
Proof.
  intros R H. apply Forall_forall. intros x Hx. apply in_map_iff in Hx. destruct Hx as (q & <- & Hq). apply (values_inside_iff ny nx) in Hq; [|exact R]. destruct Hq as (i & j & _ & E). exact (H i j q E).
Qed.

(** C142, companion.  Whatever the order of the additions: if the sum of the values inside is farther from zero than rounding can
    move it, the sign is right, and the extremum is exactly the first largest (smallest) value inside. *)
Theorem C142_sign_in_floating_point : forall f sgn_of ny nx cells data mask s v i j, proper_format f -> computed_with f sgn_of ->
  rectangular ny nx data -> (0 < ny)%nat -> (0 < nx)%nat -> cells_within ny nx cells -> field_of f data ->
  mask_data_in sgn_of cells data = Ok (mask, s, (v, i, j)) ->
  let inside := map Q2R (values_inside ny nx data mask) in clear_sum f inside ->
  exists q q', v = Num q' /\ (q' == q)%Q /\
    ((0 < total inside /\ s = Num 1 /\ first_largest data mask i j q) \/ (total inside < 0 /\ s = Num (-1) /\ first_smallest data mask i j q)).
Proof.
  intros f sgn_of ny nx cells data mask s v i j Hf HC R Hy Hx Hc HD E inside HS.
  destruct (mask_in_spec sgn_of ny nx cells data mask s v i j R Hy Hx Hc E) as (flat & sq & q & EN & Es & Eq & Vq & Ev & M).
  exists q, (sq * (sq * q))%Q. split; [exact Ev|]. destruct (HC flat) as [[N _]|(N & t & HT & Et)].
  - exfalso. rewrite EN in N. unfold inside in HS. rewrite N in HS. destruct HS as [HS _]. cbn in HS. rewrite Rabs_R0 in HS. lra.
  - rewrite EN in HT, N. replace (length (numbers flat)) with (length inside) in Et by (unfold inside; rewrite EN; apply map_length). fold inside in HT.
    destruct (clear_sign f Hf inside t HT (inside_numbers f ny nx data mask R HD) HS) as [[P S]|[P S]].
    { unfold inside. destruct (values_inside ny nx data mask); [congruence|discriminate]. }
    + assert (sq = 1%Q) as -> by congruence. split; [ring|]. left. split; [exact P|]. split; [congruence|]. split; [exact Vq|]. intros i' j' d V. destruct (M i' j' d V) as [M1 M2]. rewrite !Qmult_1_l in M1. split; [exact M1|]. intro B. specialize (M2 B). rewrite !Qmult_1_l in M2. exact M2.
    + assert (sq = (-1)%Q) as -> by congruence. split; [ring|]. right. split; [exact P|]. split; [congruence|]. split; [exact Vq|]. intros i' j' d V. destruct (M i' j' d V) as [M1 M2]. split; [Lqa.lra|]. intro B. specialize (M2 B). Lqa.lra.
Qed.
Print Assumptions C142_sign_in_floating_point.
(** Values of one sign need no margin. *)
Theorem C142_values_of_one_sign : forall f sgn_of ny nx cells data mask s v i j, proper_format f -> computed_with f sgn_of ->
  rectangular ny nx data -> (0 < ny)%nat -> (0 < nx)%nat -> cells_within ny nx cells -> field_of f data ->
  mask_data_in sgn_of cells data = Ok (mask, s, (v, i, j)) ->
  let tiny := INR (length (values_inside ny nx data mask)) * bpow radix2 (f_emin f) in
  ((forall a b q, value_at data mask a b q -> 0 <= Q2R q) -> (exists a b q, value_at data mask a b q /\ tiny <= Q2R q) -> s = Num 1 /\ exists q q', v = Num q' /\ (q' == q)%Q /\ first_largest data mask i j q) /\
  ((forall a b q, value_at data mask a b q -> Q2R q <= 0) -> (exists a b q, value_at data mask a b q /\ Q2R q <= - tiny) -> s = Num (-1) /\ exists q q', v = Num q' /\ (q' == q)%Q /\ first_smallest data mask i j q).
Proof.
  intros f sgn_of ny nx cells data mask s v i j Hf HC R Hy Hx Hc HD E tiny.
  destruct (mask_in_spec sgn_of ny nx cells data mask s v i j R Hy Hx Hc E) as (flat & sq & q & EN & Es & Eq & Vq & Ev & M).
  assert (HN : Forall (number_of f) (map Q2R (values_inside ny nx data mask))) by exact (inside_numbers f ny nx data mask R HD).
  assert (IN : forall x, In x (map Q2R (values_inside ny nx data mask)) <-> exists a b d, value_at data mask a b d /\ x = Q2R d).
  { intro x. rewrite in_map_iff. split; [intros (d & <- & I); apply (values_inside_iff ny nx) in I; [|exact R]; destruct I as (a & b & V); exists a, b, d; auto|].
    intros (a & b & d & V & ->). exists d. split; [reflexivity|]. apply (values_inside_iff ny nx); [exact R|]. exists a, b. exact V. }
  destruct (HC flat) as [[N _]|(N & t & HT & Et)].
  { exfalso. rewrite EN in N. assert (I : In q (values_inside ny nx data mask)) by (apply (values_inside_iff ny nx); [exact R|]; exists i, j; exact Vq). rewrite N in I. destruct I. }
  rewrite EN in HT. rewrite <- (map_length Q2R (numbers flat)), EN in Et. unfold tiny. rewrite <- (map_length Q2R (values_inside ny nx data mask)). rewrite Forall_forall in HN. split; intros HP (a & b & d & V & G).
  - rewrite (one_sign_pos f Hf _ t HT) in Et.
    + assert (sq = 1%Q) as -> by congruence. split; [congruence|]. exists q, (1 * (1 * q))%Q. split; [exact Ev|]. split; [ring|]. split; [exact Vq|]. intros i' j' d' V'. destruct (M i' j' d' V') as [M1 M2]. split; [Lqa.lra|]. intro B. specialize (M2 B). Lqa.lra.
    + apply Forall_forall. intros x Hx'. split; [apply number_format, HN, Hx'; exact Hf|]. apply IN in Hx'. destruct Hx' as (a' & b' & d' & V' & ->). exact (HP a' b' d' V').
    + exists (Q2R d). split; [apply IN; exists a, b, d; auto|exact G].
  - rewrite (one_sign_neg f Hf _ t HT) in Et.
    + assert (sq = (-1)%Q) as -> by congruence. split; [congruence|]. exists q, (-1 * (-1 * q))%Q. split; [exact Ev|]. split; [ring|]. split; [exact Vq|]. intros i' j' d' V'. destruct (M i' j' d' V') as [M1 M2]. split; [Lqa.lra|]. intro B. specialize (M2 B). Lqa.lra.
    + apply Forall_forall. intros x Hx'. split; [apply number_format, HN, Hx'; exact Hf|]. apply IN in Hx'. destruct Hx' as (a' & b' & d' & V' & ->). exact (HP a' b' d' V').
    + exists (Q2R d). split; [apply IN; exists a, b, d; auto|exact G].
Qed.
Print Assumptions C142_values_of_one_sign.
(** Where the field is zero everywhere inside, the sign is 0 and so is the extremum. *)
Theorem C142_only_zeros : forall f sgn_of ny nx cells data mask s v i j, proper_format f -> computed_with f sgn_of ->
  rectangular ny nx data -> (0 < ny)%nat -> (0 < nx)%nat -> cells_within ny nx cells ->
  mask_data_in sgn_of cells data = Ok (mask, s, (v, i, j)) ->
  (forall a b q, value_at data mask a b q -> (q == 0)%Q) -> s = Num 0 /\ exists q, v = Num q /\ (q == 0)%Q.
Proof.
  intros f sgn_of ny nx cells data mask s v i j Hf HC R Hy Hx Hc E HZ.
  destruct (mask_in_spec sgn_of ny nx cells data mask s v i j R Hy Hx Hc E) as (flat & sq & q & EN & Es & Eq & Vq & Ev & M).
  destruct (HC flat) as [[N _]|(N & t & HT & Et)].
  { exfalso. rewrite EN in N. assert (I : In q (values_inside ny nx data mask)) by (apply (values_inside_iff ny nx); [exact R|]; exists i, j; exact Vq). rewrite N in I. destruct I. }
  rewrite (summed_zero f _ t HT) in Et.
  - rewrite sign_zero in Et. assert (sq = 0%Q) as -> by congruence. split; [congruence|]. eexists. split; [exact Ev|]. ring.
  - apply Forall_forall. intros x I. apply in_map_iff in I. destruct I as (d & <- & I). rewrite EN in I. apply (values_inside_iff ny nx) in I; [|exact R]. destruct I as (a & b & V). rewrite (Qeq_eqR d 0 (HZ a b d V)). unfold Q2R; cbn. lra.
Qed.
Print Assumptions C142_only_zeros.

(** The order of storage is one of the orders meant. *)
Lemma one_by_one_computed f : computed_with f (one_by_one f).
Proof.
  intro l. unfold one_by_one. destruct (numbers l) as [|q0 ql] eqn:E; [left; auto|]. right. split; [discriminate|]. rewrite <- E. clear E.
  exists (fold_left (fun a x => xadd f a (XFin (Q2R x))) (numbers l) (XFin 0)). split; [|reflexivity].
  induction (numbers l) as [|x t IH] using rev_ind; [constructor|]. rewrite fold_left_app, map_app. cbn [fold_left map]. apply sum_two with (map Q2R t) [Q2R x]; [reflexivity|exact IH|constructor].
Qed.

(** *** The witness: 2^53, 1, 1, 1, -2^53, -1 *)
Definition big : Q := inject_Z 9007199254740992.
Definition cancelling : grid num := [[Num big; Num 1; Num 1]; [Num 1; Num (- big); Num (-1)]].
Definition six_cells : list (Z * Z) := [(0, 0); (0, 1); (0, 2); (1, 0); (1, 1); (1, 2)]%Z.
Definition all_six : grid bool := [[true; true; true]; [true; true; true]].
Lemma proper_double : proper_format double_format.
Proof. split; reflexivity. Qed.
Lemma big_bpow : IZR 9007199254740992 = bpow radix2 53.
Proof. reflexivity. Qed.
Lemma number_of_int f z : proper_format f -> (f_emin f <= 0)%Z -> (Z.abs z < 2 ^ f_prec f)%Z -> Rabs (IZR z) < bpow radix2 (f_emax f) -> number_of f (IZR z).
Proof. intros Hf He Hz Hb. split; [exact Hb|]. exists z, 0%Z. split; [cbn; lra|]. split; assumption. Qed.
Lemma small_int z : (Z.abs z < 2 ^ 53)%Z -> number_of double_format (IZR z).
Proof.
  intro H. apply number_of_int; [exact proper_double|cbn; lia|exact H|]. rewrite <- abs_IZR. apply Rlt_trans with (IZR (2 ^ 53)); [apply IZR_lt, H|].
  change (IZR (2 ^ 53)) with (bpow radix2 53). apply bpow_lt. reflexivity.
Qed.
Lemma big_number : number_of double_format (IZR 9007199254740992).
Proof.
  split; [rewrite Rabs_pos_eq; [|apply IZR_le; lia]; rewrite big_bpow; apply bpow_lt; reflexivity|]. exists 1%Z, 53%Z. split; [rewrite big_bpow; lra|]. split; reflexivity || (cbn; lia).
Qed.
Lemma lost_one : rnd double_format (IZR 9007199254740993) = IZR 9007199254740992.
Proof.
  unfold rnd, round, scaled_mantissa, cexp. change (f_emin double_format) with (-1074)%Z. change (f_prec double_format) with 53%Z.
  rewrite (mag_unique radix2 (IZR 9007199254740993) 54).
  - change (FLT_exp (-1074) 53 54) with 1%Z. replace (IZR 9007199254740993 * bpow radix2 (- (1))) with (IZR 4503599627370496 + / 2).
    + unfold Znearest. rewrite (Zfloor_imp 4503599627370496) by (split; [lra|rewrite plus_IZR; lra]). replace (IZR 4503599627370496 + / 2 - IZR 4503599627370496) with (/ 2) by lra. rewrite Rcompare_Eq by reflexivity.
      change (negb (Z.even 4503599627370496)) with false. cbv iota. unfold F2R. cbn [Fnum Fexp]. change (bpow radix2 1) with 2. lra.
    + change (bpow radix2 (- (1))) with (/ 2). lra.
  - rewrite Rabs_pos_eq by (apply IZR_le; lia). change (bpow radix2 (54 - 1)) with (IZR 9007199254740992). change (bpow radix2 54) with (IZR 18014398509481984). split; [apply IZR_le|apply IZR_lt]; lia.
Qed.
Lemma xround_int z : number_of double_format (IZR z) -> xround double_format (IZR z) = XFin (IZR z).
Proof.
  intro H. unfold xround. rewrite (rnd_id double_format _ (number_format double_format _ H)). destruct H as [H _]. destruct (Rle_lt_dec _ _) as [G|_]; [lra|reflexivity].
Qed.
Lemma cancelled_sum : fold_left (fun a x => xadd double_format a (XFin (Q2R x))) [big; 1; 1; 1; - big; -1]%Q (XFin 0) = XFin (-1).
Proof.
  cbn [fold_left].
  assert (B : Q2R big = IZR 9007199254740992) by (unfold Q2R, big, inject_Z; cbn [Qnum Qden]; lra).
  assert (B' : Q2R (- big) = IZR (-9007199254740992)) by (rewrite Q2R_opp, B; rewrite <- opp_IZR; reflexivity).
  assert (O : Q2R 1 = 1) by (unfold Q2R; cbn; lra). assert (O' : Q2R (-1) = -1) by (unfold Q2R; cbn; lra). rewrite B, B', O, O'.
  cbn [xadd]. rewrite Rplus_0_l, (xround_int _ big_number).
  assert (L : xadd double_format (XFin (IZR 9007199254740992)) (XFin 1) = XFin (IZR 9007199254740992)).
  { cbn [xadd]. replace (IZR 9007199254740992 + 1) with (IZR 9007199254740993) by lra. unfold xround. rewrite lost_one. destruct big_number as [G _]. destruct (Rle_lt_dec _ _); [lra|reflexivity]. }
  rewrite L, L, L. cbn [xadd]. replace (IZR 9007199254740992 + IZR (-9007199254740992)) with (IZR 0) by lra. rewrite xround_int by (apply small_int; reflexivity).
  cbn [xadd]. replace (IZR 0 + -1) with (IZR (-1)) by lra. apply xround_int, small_int. reflexivity.
Qed.

(** C142 is false without a margin: the mean of these six values is 1/3, but the mean computed with doubles in the order of storage
    is negative, and the smallest value inside is reported in place of the largest. *)
Theorem C142_sign_in_floating_point_refuted : exists sgn_of ny nx cells data mask m, computed_with double_format sgn_of /\
  rectangular ny nx data /\ cells_within ny nx cells /\ field_of double_format data /\
  mask_data_in sgn_of cells data = Ok (mask, Num (-1), (Num (- big), 1%nat, 1%nat)) /\ Qmean (values_inside ny nx data mask) = Num m /\ (0 < m)%Q /\ value_at data mask 0 0 big.
Proof.
  exists (one_by_one double_format), 2%nat, 3%nat, six_cells, cancelling, all_six. eexists. split; [apply one_by_one_computed|]. split; [split; [reflexivity|repeat constructor]|]. split; [repeat constructor; cbn; lia|]. split; [|split; [|split; [vm_compute; reflexivity|split; [reflexivity|split; reflexivity]]]].
  - intros i j q H. unfold at_ in H.
    assert (C : q = big \/ q = (- big)%Q \/ q = 1%Q \/ q = (-1)%Q).
    { destruct i as [|[ |i]]; [| |destruct i; discriminate]; (destruct j as [|[ |[ |j]]]; [| | |destruct j; discriminate]); cbn in H; injection H as <-; auto. }
    destruct C as [-> | [-> | [-> | ->]]].
    + replace (Q2R big) with (IZR 9007199254740992) by (unfold Q2R, big, inject_Z; cbn [Qnum Qden]; lra). exact big_number.
    + rewrite Q2R_opp. replace (Q2R big) with (IZR 9007199254740992) by (unfold Q2R, big, inject_Z; cbn [Qnum Qden]; lra). destruct big_number as [G (m & e & E & Hm & He)]. split; [rewrite Rabs_Ropp; exact G|]. exists (- m)%Z, e. split; [rewrite E, opp_IZR; lra|]. split; [lia|exact He].
    + replace (Q2R 1) with (IZR 1) by (unfold Q2R; cbn; lra). apply small_int. reflexivity.
    + replace (Q2R (-1)) with (IZR (-1)) by (unfold Q2R; cbn; lra). apply small_int. reflexivity.
  - assert (S : one_by_one double_format [Num big; Num 1; Num 1; Num 1; Num (- big); Num (-1)] = Num (-1)).
    { unfold one_by_one. cbn [numbers flat_map app]. rewrite cancelled_sum. apply sign_neg; [exact proper_double|cbn; lia|].
      assert (bpow radix2 (f_emin double_format) <= bpow radix2 (-3)) by (apply bpow_le; vm_compute; discriminate). change (bpow radix2 (-3)) with (/ 8) in H. cbn [length INR]. lra. }
    change (mask_data_in (one_by_one double_format) six_cells cancelling) with
      (match nan_argmax (map (nmul (one_by_one double_format [Num big; Num 1; Num 1; Num 1; Num (- big); Num (-1)])) [Num big; Num 1; Num 1; Num 1; Num (- big); Num (-1)]) 0 None with
       | None => Err ValueError | Some (m, k) => Ok (all_six, one_by_one double_format [Num big; Num 1; Num 1; Num 1; Num (- big); Num (-1)], (nmul (one_by_one double_format [Num big; Num 1; Num 1; Num 1; Num (- big); Num (-1)]) (Num m), Nat.div k 3, Nat.modulo k 3)) end).
    rewrite S. vm_compute. reflexivity.
Qed.
Print Assumptions C142_sign_in_floating_point_refuted.

(** The hypotheses of the companion are met: a field with one negative value among six. *)
Definition mostly_high : grid num := [[Num 3; Num 1; Num 1]; [Num 1; Num (-1); Num 1]].
Lemma mostly_high_clear : clear_sum double_format (map Q2R [3; 1; 1; 1; -1; 1]%Q).
Proof.
  assert (U : 0 < unit_roundoff double_format <= / 100) by (split; [apply bpow_gt_0|apply Rle_trans with (bpow radix2 (-7)); [apply bpow_le; vm_compute; discriminate|change (bpow radix2 (-7)) with (/ 128); lra]]).
  assert (E : 0 < bpow radix2 (f_emin double_format) <= / 8) by (split; [apply bpow_gt_0|change (/ 8) with (bpow radix2 (-3)); apply bpow_le; vm_compute; discriminate]).
  assert (M : 1024 <= bpow radix2 (f_emax double_format)) by (change 1024 with (bpow radix2 10); apply bpow_le; vm_compute; discriminate).
  assert (P : forall n, (1 + unit_roundoff double_format) ^ n <= (1 + / 100) ^ n) by (intro n; apply pow_incr; lra).
  assert (T : total (map Q2R [3; 1; 1; 1; -1; 1]%Q) = 6) by (unfold total, Q2R; cbn; lra).
  assert (A : total_abs (map Q2R [3; 1; 1; 1; -1; 1]%Q) = 8).
  { unfold total_abs, Q2R. cbn [map fold_right Qnum Qden]. rewrite Rinv_1, !Rmult_1_r. rewrite (Rabs_pos_eq 3), (Rabs_pos_eq 1) by lra. rewrite (Rabs_left (-1)) by lra. lra. }
  unfold clear_sum. rewrite T, A. cbn [map length Nat.sub INR]. rewrite (Rabs_pos_eq 6) by lra. pose proof (P 5%nat) as P5. pose proof (P 6%nat) as P6. cbn [pow] in P5, P6 |- *. split; lra.
Qed.
Lemma mostly_high_sign : one_by_one double_format [Num 3; Num 1; Num 1; Num 1; Num (-1); Num 1] = Num 1.
Proof.
  destruct (one_by_one_computed double_format [Num 3; Num 1; Num 1; Num 1; Num (-1); Num 1]) as [[N _]|(_ & s & S & ->)]; [discriminate|]. cbn [numbers flat_map app] in S |- *.
  destruct (clear_sign double_format proper_double _ s S) as [[_ E]|[G _]]; [|exact mostly_high_clear|discriminate|exact E|unfold total, Q2R in G; cbn in G; lra].
  apply Forall_forall. intros x Hx. apply in_map_iff in Hx. destruct Hx as (q & <- & Hq). assert (C : exists z, (Z.abs z < 2 ^ 53)%Z /\ Q2R q = IZR z).
  { repeat (destruct Hq as [<-|Hq]; [unfold Q2R; cbn [Qnum Qden]; eexists; split; [|unfold Rdiv; rewrite Rinv_1, Rmult_1_r; reflexivity]; reflexivity|]). destruct Hq. }
  destruct C as (z & Hz & ->). apply small_int, Hz.
Qed.
Example C142_case : computed_with double_format (one_by_one double_format) /\ rectangular 2 3 mostly_high /\ cells_within 2 3 six_cells /\
  mask_data_in (one_by_one double_format) six_cells mostly_high = Ok (all_six, Num 1, (Num 3, 0%nat, 0%nat)) /\ clear_sum double_format (map Q2R (values_inside 2 3 mostly_high all_six)).
Proof.
  split; [apply one_by_one_computed|]. split; [split; [reflexivity|repeat constructor]|]. split; [repeat constructor; cbn; lia|]. split; [|exact mostly_high_clear].
  change (mask_data_in (one_by_one double_format) six_cells mostly_high) with
    (match nan_argmax (map (nmul (one_by_one double_format [Num 3; Num 1; Num 1; Num 1; Num (-1); Num 1])) [Num 3; Num 1; Num 1; Num 1; Num (-1); Num 1]) 0 None with
     | None => Err ValueError | Some (m, k) => Ok (all_six, one_by_one double_format [Num 3; Num 1; Num 1; Num 1; Num (-1); Num 1], (nmul (one_by_one double_format [Num 3; Num 1; Num 1; Num 1; Num (-1); Num 1]) (Num m), Nat.div k 3, Nat.modulo k 3)) end).
  rewrite mostly_high_sign. vm_compute. reflexivity.
Qed.

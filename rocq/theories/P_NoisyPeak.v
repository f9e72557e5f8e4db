(** C152: the contour of a Gaussian in a field with noise *)
From Coq Require Import Reals Lra Lia Bool Psatz List.
From Verif Require Import M_Base M_Gauss M_Cntr M_Extract S_Cntr S_Border S_Cross S_Turn S_Enclose S_Hill S_Peak S_Noise L_Loop L_Nest L_Hill P_Cntr P_Lines P_Border P_Cross P_Enclose P_Nest P_Hill P_Peak P_Noise.
Import ListNotations.
Open Scope R_scope.

(** C152: a Gaussian, circular or aligned with the axes, with noise smaller than the distance of the level from its values, still has exactly one contour of the level; it is closed, and the points inside
    are those at which the Gaussian itself, without the noise, is beyond the level. *)
Theorem C152_noisy_gaussian : forall fuel mem x y z z' eps A x0 y0 s1 s2 theta level segments codes, meshed x y z -> (2 <= m_cols R z)%Z -> (2 <= m_rows R z)%Z -> with_axes x y z -> enough z fuel ->
  s1 <> 0 -> s2 <> 0 -> aligned s1 s2 theta -> one_gaussian x y z A x0 y0 s1 s2 theta -> level_inside z A level ->
  noisy z z' eps -> (forall k, in_mesh (m_cols R z) (m_rows R z) k -> eps < Rabs (m_at R z k - level)) -> extractR fuel mem x y z' level = Ok (segments, codes) ->
  exists vs, segments = [Verts R vs] /\ closed_outline vs /\ forall p, in_mesh (m_cols R z) (m_rows R z) p -> inside_of vs (node x y p) <-> beyond_level A level (m_at R z p).
Proof.
  intros fuel mem x y z z' eps A x0 y0 s1 s2 theta level segments codes M C2 R2 Ax F N1 N2 Al G [Ex Bd] [Nr Nc Nv] Cl E. pose proof Ax as (xs & ys & MX & MY & AX). 
  assert (M' : meshed x y z') by (unfold meshed in *; rewrite Nr, Nc; exact M). assert (F' : enough z' fuel) by (unfold enough in *; rewrite Nr, Nc; exact F). assert (Ax' : with_axes x y z') by (unfold with_axes in *; rewrite Nr, Nc; exact Ax).
  set (cols := m_cols R z) in *. set (rows := m_rows R z) in *.
  assert (Kept : forall k, in_mesh cols rows k -> is_higher (m_at R z' k) level = is_higher (m_at R z k) level) by (intros k Ik; apply (Rgtb_kept _ _ _ eps); [apply Nv, Ik|apply Cl, Ik]).
  assert (Ms : misses_the_level z level) by (intros k Hk X; pose proof (Cl k Hk) as Y; pose proof (Nv k Hk) as W; rewrite X, Rminus_diag_eq, Rabs_R0 in Y by reflexivity; pose proof (Rabs_pos (m_at R z' k - m_at R z k)); lra).
  assert (Ms' : misses_the_level z' level) by (intros k Hk X; rewrite Nr, Nc in Hk; pose proof (Cl k Hk) as Y; pose proof (Nv k Hk) as W; rewrite X, Rabs_minus_sym in W; lra).
  set (hill := if Rlt_dec 0 A then true else false).
  assert (Sgn : A <> 0) by (destruct Ex as (k & _ & [[P _]|[P _]]); lra).
  assert (Hb : forall k, in_mesh cols rows k -> is_higher (m_at R z' k) level = hill <-> beyond_level A level (m_at R z k)).
  { intros k Ik. rewrite (Kept k Ik). pose proof (Ms k Ik) as Nk. unfold is_higher, hill, beyond_level. destruct (Rlt_dec level (m_at R z k)), (Rlt_dec 0 A); split; intro X; try discriminate X; try reflexivity; try (left; split; lra); try (right; split; lra); destruct X as [[X Y]|[X Y]]; lra. }
  destruct (axis_valley cols xs x0 ltac:(lia) MX) as (i0 & I0 & Vx). destruct (axis_valley rows ys y0 ltac:(lia) MY) as (j0 & J0 & Vy).
  assert (Val : forall i j, (0 <= i < cols)%Z -> (0 <= j < rows)%Z -> in_mesh cols rows (i + j * cols)%Z /\ m_at R z (i + j * cols)%Z = A * exp (- (stretch_x s1 s2 theta * (xs i - x0) ^ 2 + stretch_y s1 s2 theta * (ys j - y0) ^ 2))).
  { intros i j Hi Hj. destruct (coord cols rows i j Hi Hj) as (A1 & A2 & A3). split; [exact A1|]. rewrite (G _ A1), (gaussian_aligned _ _ _ _ _ _ _ _ N1 N2 Al). destruct (AX _ A1) as [-> ->]. rewrite A2, A3. reflexivity. }
  pose proof (stretch_pos (cos theta) (sin theta) s1 s2 N1 N2) as Px. fold (stretch_x s1 s2 theta) in Px. pose proof (stretch_pos (sin theta) (cos theta) s1 s2 N1 N2) as Py. fold (stretch_y s1 s2 theta) in Py.
  assert (Bh : forall k, border_point cols rows k -> is_higher (m_at R z' k) level = negb hill).
  { intros k Bk. destruct (bool_dec (is_higher (m_at R z' k) level) hill) as [X|X]; [exfalso; apply (Bd k Bk), (Hb k (proj1 Bk)), X|]. destruct (is_higher (m_at R z' k) level), hill; cbn; congruence. }
  assert (Cn : forall p q, in_mesh cols rows p -> in_mesh cols rows q -> is_higher (m_at R z' p) level = is_higher (m_at R z' q) level -> joined_on_one_side z' level p q).
  { intros p q Ip Iq Eq. unfold joined_on_one_side. rewrite Nr, Nc. fold cols rows. apply (star_connected cols rows ltac:(lia) ltac:(lia) (fun k => is_higher (m_at R z' k) level) _ hill i0 j0 I0 J0); try assumption.
    - intros i i' j Hi Hj Hi' H. destruct (Val i j Hi Hj) as [V1 V2]. destruct (Val i' j ltac:(lia) Hj) as [V1' V2']. apply (Hb _ V1) in H. apply (Hb _ V1'). rewrite V2 in H. rewrite V2'. refine (gaussian_nearer _ _ _ _ _ H). pose proof (Vx i i' Hi Hi'). nra.
    - intros i j j' Hi Hj Hj' H. destruct (Val i j Hi Hj) as [V1 V2]. destruct (Val i j' Hi ltac:(lia)) as [V1' V2']. apply (Hb _ V1) in H. apply (Hb _ V1'). rewrite V2 in H. rewrite V2'. refine (gaussian_nearer _ _ _ _ _ H). pose proof (Vy j j' Hj Hj'). nra. }
  destruct (C130_one_hill_one_contour fuel mem x y z' level hill segments codes M') as (vs & V1 & V2 & V3); try (rewrite ?Nr, ?Nc; assumption); try assumption.
  - rewrite Nr, Nc. destruct Ex as (k & Ik & Bk). exists k. split; [exact Ik|]. apply (Hb k Ik), Bk.
  - rewrite Nr, Nc in V3. exists vs. split; [exact V1|]. split; [exact V2|]. intros p Ip. rewrite (V3 p Ip). apply (Hb p Ip).
Qed.
Print Assumptions C152_noisy_gaussian.

(** The hypotheses are met: the Gaussian of C134_case with noise of 1/20, upwards at the points of odd number and downwards at the others *)
Definition shaky : mat R := mkMat R 5 5 (fun k => m_at R (fiveZ 1 (1 / 2) 0) k + (if Z.odd k then 1 / 20 else - (1 / 20))).
Example C152_case : let z := fiveZ 1 (1 / 2) 0 in meshed fiveX fiveY z /\ (2 <= m_cols R z)%Z /\ (2 <= m_rows R z)%Z /\ with_axes fiveX fiveY z /\ enough z 200 /\ aligned 1 (1 / 2) 0 /\ one_gaussian fiveX fiveY z 1 2 2 1 (1 / 2) 0 /\
  level_inside z 1 (2 / 5) /\ noisy z shaky (1 / 20) /\ (forall k, in_mesh (m_cols R z) (m_rows R z) k -> 1 / 20 < Rabs (m_at R z k - 2 / 5)) /\ exists s c, extractR 200 (fun _ => blank) fiveX fiveY shaky (2 / 5) = Ok (s, c).
Proof.
  cbv zeta. destruct C134_case as (M & A & _ & F & Al & G & L & _). split; [exact M|]. split; [cbn; lia|]. split; [cbn; lia|]. split; [exact A|]. split; [exact F|]. split; [exact Al|]. split; [exact G|]. split; [exact L|]. split; [|split].
  - constructor; [reflexivity..|]. intros k _. cbn [shaky m_at]. replace (m_at R (fiveZ 1 (1 / 2) 0) k + (if Z.odd k then 1 / 20 else - (1 / 20)) - m_at R (fiveZ 1 (1 / 2) 0) k) with (if Z.odd k then 1 / 20 else - (1 / 20)) by ring. destruct (Z.odd k); apply Rabs_le; lra.
  - intros k Ik. pose proof (flat_value k Ik) as V. destruct (row_hill k); unfold Rabs; destruct (Rcase_abs _); lra.
  - exact (C64_tracing_stays_inside_the_arrays R Rplus Rminus Rmult Rdiv 4 Rgtb Reqb 200 (fun _ => blank) fiveX fiveY shaky (2 / 5) ltac:(unfold meshed; cbn; lia) F).
Qed.
(** Points that are connected on one side of the level stay connected. *)
Lemma connected_kept z z' level eps p q : noisy z z' eps -> clear_of z level eps -> joined_on_one_side z level p q -> joined_on_one_side z' level p q.
Proof.
  intros N C H. unfold joined_on_one_side in *. rewrite (nz_rows _ _ _ N), (nz_cols _ _ _ N).
  assert (K : forall k, S_Cntr.in_mesh (m_cols R z) (m_rows R z) k -> is_higher (m_at R z' k) level = is_higher (m_at R z k) level) by (intros k Ik; apply (above_kept z z' level eps N C k Ik)).
  induction H as [p|p q r S E _ IH|k p q r Ck Am Ip Iq Pp Pq E Kn _ IH]; [constructor| |].
  - apply (Beside _ _ _ _ p q r); [exact S| |exact IH]. destruct S as (Ip & Iq & _). rewrite !K by assumption. exact E.
  - apply (Across _ _ _ _ k p q r); try assumption.
    + apply (ambiguous_kept z z' level eps N C k Ck), Am.
    + rewrite !K by assumption. exact E.
    + cbv beta. rewrite (K p Ip). cbv beta in Kn. rewrite <- Kn. pose proof (mean_kept z z' level eps k N C Ck Am) as Mk. exact Mk.
Qed.
(** C152: one hill (or basin) of any shape in a field with noise, as in C130 *)
Theorem C152_noisy_hill : forall fuel mem x y z z' eps level hill segments codes, meshed x y z -> (2 <= m_cols R z)%Z -> (2 <= m_rows R z)%Z -> with_axes x y z -> enough z fuel -> noisy z z' eps -> clear_of z level eps ->
  (exists p, in_mesh (m_cols R z) (m_rows R z) p /\ is_higher (m_at R z p) level = hill) -> (forall p, border_point (m_cols R z) (m_rows R z) p -> is_higher (m_at R z p) level = negb hill) ->
  (forall p q, in_mesh (m_cols R z) (m_rows R z) p -> in_mesh (m_cols R z) (m_rows R z) q -> is_higher (m_at R z p) level = is_higher (m_at R z q) level -> joined_on_one_side z level p q) ->
  extractR fuel mem x y z' level = Ok (segments, codes) ->
  exists vs, segments = [Verts R vs] /\ closed_outline vs /\ forall p, in_mesh (m_cols R z) (m_rows R z) p -> (inside_of vs (node x y p) <-> is_higher (m_at R z p) level = hill).
Proof.
  intros fuel mem x y z z' eps level hill segments codes M C2 R2 Ax F N C (k0 & I0 & H0) Bd Cn E. pose proof N as [Nr Nc Nv]. pose proof (co_values _ _ _ C) as Cl.
  assert (M' : meshed x y z') by (unfold meshed in *; rewrite Nr, Nc; exact M). assert (F' : enough z' fuel) by (unfold enough in *; rewrite Nr, Nc; exact F). assert (Ax' : with_axes x y z') by (unfold with_axes in *; rewrite Nr, Nc; exact Ax).
  assert (Ms' : misses_the_level z' level) by (intros k Hk X; rewrite Nr, Nc in Hk; pose proof (Cl k Hk) as Y; pose proof (Nv k Hk) as W; rewrite X, Rabs_minus_sym in W; lra).
  assert (K : forall k, S_Cntr.in_mesh (m_cols R z) (m_rows R z) k -> is_higher (m_at R z' k) level = is_higher (m_at R z k) level) by (intros k Ik; apply (above_kept z z' level eps N C k Ik)).
  destruct (C130_one_hill_one_contour fuel mem x y z' level hill segments codes M') as (vs & V1 & V2 & V3); try (rewrite ?Nr, ?Nc; assumption); try assumption.
  - rewrite Nr, Nc. exists k0. split; [exact I0|]. rewrite (K k0 I0). exact H0.
  - rewrite Nr, Nc. intros p Bp. rewrite (K p (proj1 Bp)). apply Bd, Bp.
  - rewrite Nr, Nc. intros p q Ip Iq Eq. rewrite !K in Eq by assumption. apply (connected_kept z z' level eps p q N C), Cn; assumption.
  - rewrite Nr, Nc in V3. exists vs. split; [exact V1|]. split; [exact V2|]. intros p Ip. rewrite (V3 p Ip), (K p Ip). reflexivity.
Qed.
Print Assumptions C152_noisy_hill.
(** The hypotheses are met: the summit of C130_case with noise of 1/10 *)
Definition shakySummit : mat R := mkMat R 3 3 (fun k => if (k =? 4)%Z then 9 / 10 else if (k =? 1)%Z then 1 / 10 else - (1 / 10)).
Example C152_hill_case : noisy peakZ shakySummit (1 / 10) /\ clear_of peakZ (1 / 2) (1 / 10) /\ (exists p, in_mesh 3 3 p /\ is_higher (m_at R peakZ p) (1 / 2) = true) /\ (forall p, border_point 3 3 p -> is_higher (m_at R peakZ p) (1 / 2) = negb true) /\
  (forall p q, in_mesh 3 3 p -> in_mesh 3 3 q -> is_higher (m_at R peakZ p) (1 / 2) = is_higher (m_at R peakZ q) (1 / 2) -> joined_on_one_side peakZ (1 / 2) p q) /\
  exists s c, extractR 60 (fun _ => blank) peakX peakY shakySummit (1 / 2) = Ok (s, c).
Proof.
  destruct C130_case as (M & _ & _ & _ & _ & F & Ex & Bd & Cn & _). split; [|split; [|split; [exact Ex|]; split; [exact Bd|]; split; [exact Cn|]]].
  - constructor; [reflexivity..|]. intros k _. cbn [peakZ shakySummit m_at]. destruct (k =? 4)%Z; [|destruct (k =? 1)%Z]; apply Rabs_le; lra.
  - constructor; [intros k _; cbn [peakZ m_at]; destruct (k =? 4)%Z; unfold Rabs; destruct (Rcase_abs _); lra|]. intros q _ S. exfalso. destruct q as [i j]. unfold saddle in S. cbn [fst snd peakZ m_at m_cols] in S.
    destruct (Z.eqb_spec (i + 0 + (j + 0) * 3) 4), (Z.eqb_spec (i + 1 + (j + 1) * 3) 4), (Z.eqb_spec (i + 1 + (j + 0) * 3) 4), (Z.eqb_spec (i + 0 + (j + 1) * 3) 4); try lia; lra.
  - exact (C64_tracing_stays_inside_the_arrays R Rplus Rminus Rmult Rdiv 4 Rgtb Reqb 60 (fun _ => blank) peakX peakY shakySummit (1 / 2) ltac:(unfold meshed; cbn; lia) F).
Qed.

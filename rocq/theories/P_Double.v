(** C88, C89: contour vertices in double arithmetic *)
From Coq Require Import Lia Reals Lra ZArith FunctionalExtensionality.
From Flocq Require Import Core.
From Verif Require Import M_Base M_Printer M_Cntr M_Extract S_Cntr S_Double L_Printer L_Double P_Cntr.
Local Open Scope R_scope.

(** extract_contours with the arithmetic of double *)
Definition extract64 := extract_contours R add64 sub64 mul64 div64 4 Rgtb Reqb.
Definition doubles (m : mat R) : Prop := forall k, double (m_at R m k).

Lemma vertex64 fuel mem x y z level segments codes vs v : meshed x y z -> enough z fuel -> extract64 fuel mem x y z level = Ok (segments, codes) -> In (Verts R vs) segments -> In v vs ->
  exists p q, side (m_cols R z) (m_rows R z) (p, q) /\ (m_at R z p <= level < m_at R z q \/ m_at R z q <= level < m_at R z p) /\ v = vertex R add64 sub64 mul64 div64 x y z level (p, q).
Proof.
  intros M F E Hs Hv. unfold extract64 in E. destruct (master R add64 sub64 mul64 div64 4%R Rgtb Reqb fuel mem x y z level M F) as [T [curves [cd [E' [_ [_ [_ [Fc _]]]]]]]]. rewrite E' in E. injection E as <- _.
  apply in_map_iff in Hs as [c [Ec Hc]]. injection Ec as <-. apply in_map_iff in Hv as [[p q] [<- He]]. rewrite Forall_forall in Fc. destruct (cv_sides _ _ _ _ (Fc c Hc) _ He) as [Sd Cr].
  exists p, q. split; [exact Sd|]. split; [|reflexivity]. unfold crossed, above_of in Cr. cbn [fst snd] in Cr. 
  destruct (Rgtb (m_at R z p) level) eqn:P, (Rgtb (m_at R z q) level) eqn:Q; try congruence; [right|left]; [apply Rgtb_true in P; apply Rgtb_false in Q|apply Rgtb_false in P; apply Rgtb_true in Q]; lra.
Qed.

(** *** C88 *)
(** The distance of a computed coordinate from the interpolated one *)
Definition close_to (a b v exact : R) : Prop := Rabs (v - exact) <= Rmax (Rabs a) (Rabs b) / 2 ^ 48 + bpow radix2 (-1073).
Theorem C88_vertices_in_double_arithmetic fuel mem x y z level segments codes vs v :
  meshed x y z -> enough z fuel -> doubles x -> doubles y -> doubles z -> double level ->
  extract64 fuel mem x y z level = Ok (segments, codes) -> In (Verts R vs) segments -> In v vs ->
  exists p q, side (m_cols R z) (m_rows R z) (p, q) /\ (m_at R z p <= level < m_at R z q \/ m_at R z q <= level < m_at R z p) /\
    let t := (level - m_at R z p) / (m_at R z q - m_at R z p) in
    0 <= t <= 1 /\
    close_to (m_at R x p) (m_at R x q) (fst v) (m_at R x p + t * (m_at R x q - m_at R x p)) /\ close_to (m_at R y p) (m_at R y q) (snd v) (m_at R y p + t * (m_at R y q - m_at R y p)) /\
    (m_at R x p = m_at R x q -> fst v = m_at R x p) /\ (m_at R y p = m_at R y q -> snd v = m_at R y p).
Proof.
  intros M F Dx Dy Dz Dl E Hs Hv. destruct (vertex64 _ _ _ _ _ _ _ _ _ _ M F E Hs Hv) as (p & q & Sd & C & ->). exists p, q. split; [exact Sd|]. split; [exact C|]. cbv zeta.
  split; [apply exact_range, C|]. cbn [vertex fst snd].
  split; [apply (inter_eps (m_at R z p) (m_at R z q) level (m_at R x p) (m_at R x q)); auto|]. split; [apply (inter_eps (m_at R z p) (m_at R z q) level (m_at R y p) (m_at R y q)); auto|].
  split; intro Q; [apply (inter_same (m_at R z p) (m_at R z q) level (m_at R x p) (m_at R x q))|apply (inter_same (m_at R z p) (m_at R z q) level (m_at R y p) (m_at R y q))]; auto.
Qed.
Print Assumptions C88_vertices_in_double_arithmetic.

(** *** C89 *)
(** Vertices stay on their side of the mesh, and so inside the grid, when the differences of neighbouring coordinates are doubles (e.g. when they are within a factor of two
    of each other, or multiples of a power of two that are not too large) *)
Definition exact_steps (m : mat R) (cols rows : Z) : Prop := forall p q, side cols rows (p, q) -> double (m_at R m q - m_at R m p).
Theorem C89_vertices_stay_on_their_side_partial fuel mem x y z level segments codes vs v :
  meshed x y z -> enough z fuel -> doubles x -> doubles y -> doubles z -> double level -> exact_steps x (m_cols R z) (m_rows R z) -> exact_steps y (m_cols R z) (m_rows R z) ->
  extract64 fuel mem x y z level = Ok (segments, codes) -> In (Verts R vs) segments -> In v vs ->
  exists p q, side (m_cols R z) (m_rows R z) (p, q) /\ (m_at R z p <= level < m_at R z q \/ m_at R z q <= level < m_at R z p) /\
    within (m_at R x p) (m_at R x q) (fst v) /\ within (m_at R y p) (m_at R y q) (snd v).
Proof.
  intros M F Dx Dy Dz Dl Ex Ey E Hs Hv. destruct (vertex64 _ _ _ _ _ _ _ _ _ _ M F E Hs Hv) as (p & q & Sd & C & ->). exists p, q. split; [exact Sd|]. split; [exact C|]. cbn [vertex fst snd].
  split; [apply (inter_on_side (m_at R z p) (m_at R z q) level (m_at R x p) (m_at R x q))|apply (inter_on_side (m_at R z p) (m_at R z q) level (m_at R y p) (m_at R y q))]; auto.
Qed.
Print Assumptions C89_vertices_stay_on_their_side_partial.
(** Otherwise not: two columns at 1 and 2^-60, the level passing exactly through the second one; the vertex is put at 0, outside the grid. *)
Definition tiny := bpow radix2 (-60).
Lemma tiny_pos : 0 < tiny. Proof. apply bpow_gt_0. Qed.
Lemma double_bpow e : (-1074 <= e)%Z -> double (bpow radix2 e).
Proof. intro H. apply generic_format_bpow. unfold FLT_exp. lia. Qed.
Lemma one_minus_tiny : b64 (1 - tiny) = 1.
Proof.
  pose proof tiny_pos as T. apply Rle_antisym; [rewrite <- b64_1 at 2; apply b64_le; lra|]. unfold b64. change 1 with (bpow radix2 0) at 1. apply round_N_ge_midp; [apply FLT_exp_valid; reflexivity|apply double_bpow; lia|].
  rewrite pred_bpow by (apply FLT_exp_valid; reflexivity). change (FLT_exp (-1074) 53 0) with (-53)%Z. change (bpow radix2 0) with 1. unfold tiny.
  assert (bpow radix2 (-53) = 128 * bpow radix2 (-60)) as ->. { change (-53)%Z with (7 + -60)%Z. rewrite bpow_plus. change (bpow radix2 7) with (IZR 128). reflexivity. } fold tiny. lra.
Qed.
Definition column_values (a b : R) : mat R := mkMat R 2 2 (fun k => if Z.even k then a else b).
Lemma column_trace c : cntr_trace 2 2 Z.even c 100 (fun _ => blank) = Ok [[(0, 1); (3, 2)]]%Z. Proof. vm_compute. reflexivity. Qed.
Theorem C89_vertices_inside_the_grid_refuted : exists x y z level fuel mem segments codes vs v,
  doubles x /\ doubles y /\ doubles z /\ double level /\ meshed x y z /\ enough z fuel /\ (forall k, 0 < m_at R x k) /\
  extract64 fuel mem x y z level = Ok (segments, codes) /\ In (Verts R vs) segments /\ In v vs /\ fst v = 0.
Proof.
  pose proof tiny_pos as T.
  assert (D0 : double 0) by apply double_0. assert (D1 : double 1) by (change 1 with (bpow radix2 0); apply double_bpow; lia). assert (Dt : double tiny) by (apply double_bpow; lia).
  assert (Dc : forall a b, double a -> double b -> doubles (column_values a b)) by (intros a b A B k; cbn; destruct (Z.even k); assumption).
  set (x := column_values 1 tiny). set (y := column_values 0 0). set (z := column_values 1 0).
  assert (M : meshed x y z) by (repeat split; cbn; lia). assert (F : enough z 100) by (unfold enough; cbn; lia).
  destruct (master R add64 sub64 mul64 div64 4 Rgtb Reqb 100 (fun _ => blank) x y z 0 M F) as (_ & curves & cf & E & _ & Tr & _).
  assert (A : above_of R Rgtb z 0 = Z.even).
  { apply functional_extensionality. intro k. unfold above_of. cbn. destruct (Z.even k); [apply Rgtb_true; lra|apply Rgtb_false; lra]. }
  rewrite A in Tr. change (m_cols R z) with 2%Z in Tr. change (m_rows R z) with 2%Z in Tr. rewrite column_trace in Tr. injection Tr as <-.
  exists x, y, z, 0, 100%nat, (fun _ => blank). eexists _, _, _, (vertex R add64 sub64 mul64 div64 x y z 0 (0, 1)%Z).
  split; [apply Dc; assumption|]. split; [apply Dc; assumption|]. split; [apply Dc; assumption|]. split; [exact D0|]. split; [exact M|]. split; [exact F|].
  split; [intro k; cbn; destruct (Z.even k); lra|]. split; [exact E|]. split; [left; reflexivity|]. split; [left; reflexivity|].
  change (add64 (mul64 (div64 (sub64 0 1) (sub64 0 1)) (sub64 tiny 1)) 1 = 0). unfold add64, sub64, mul64, div64. replace (0 - 1) with (Ropp 1) by ring. rewrite b64_opp, b64_1. replace (Ropp 1 / Ropp 1) with 1 by (field; lra). rewrite b64_1.
  replace (tiny - 1) with (- (1 - tiny)) by ring. rewrite b64_opp, one_minus_tiny. replace (1 * Ropp 1) with (Ropp 1) by ring. rewrite b64_opp, b64_1. replace (Ropp 1 + 1) with 0 by ring. apply b64_0.
Qed.
Print Assumptions C89_vertices_inside_the_grid_refuted.
(** A case of C88 and C89: columns at 1 and 2 *)
Example C88_C89_case : let x := column_values 1 2 in let z := column_values 1 0 in
  meshed x x z /\ enough z 100 /\ doubles x /\ doubles z /\ double 0 /\ exact_steps x 2 2 /\
  exists segments codes vs v, extract64 100 (fun _ => blank) x x z 0 = Ok (segments, codes) /\ In (Verts R vs) segments /\ In v vs.
Proof.
  assert (D0 : double 0) by apply double_0. assert (D1 : double 1) by (change 1 with (bpow radix2 0); apply double_bpow; lia). assert (D2 : double 2) by (change 2 with (bpow radix2 1); apply double_bpow; lia).
  assert (Dc : forall a b, double a -> double b -> doubles (column_values a b)) by (intros a b A B k; cbn; destruct (Z.even k); assumption).
  cbv zeta. set (x := column_values 1 2). set (z := column_values 1 0).
  assert (M : meshed x x z) by (repeat split; cbn; lia). assert (F : enough z 100) by (unfold enough; cbn; lia).
  split; [exact M|]. split; [exact F|]. split; [apply Dc; assumption|]. split; [apply Dc; assumption|]. split; [exact D0|]. split.
  - intros p q _. cbn. destruct (Z.even q), (Z.even p); [replace (1 - 1) with 0 by ring|replace (1 - 2) with (Ropp 1) by ring; apply double_opp|replace (2 - 1) with 1 by ring|replace (2 - 2) with 0 by ring]; assumption.
  - destruct (master R add64 sub64 mul64 div64 4 Rgtb Reqb 100 (fun _ => blank) x x z 0 M F) as (_ & curves & cf & E & _ & Tr & _).
    assert (A : above_of R Rgtb z 0 = Z.even).
    { apply functional_extensionality. intro k. unfold above_of. cbn. destruct (Z.even k); [apply Rgtb_true; lra|apply Rgtb_false; lra]. }
    rewrite A in Tr. change (m_cols R z) with 2%Z in Tr. change (m_rows R z) with 2%Z in Tr. rewrite column_trace in Tr. injection Tr as <-.
    eexists _, _, _, _. split; [exact E|]. split; [left; reflexivity|left; reflexivity].
Qed.

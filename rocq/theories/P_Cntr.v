(** C63-C66, C76-C78: contour lines *)
From Coq Require Import Lia Reals Lra QArith.
From Verif Require Import M_Base M_Cntr M_Extract S_Cntr L_Cntr2 L_Cntr10 L_Extract L_Cntr12.
Local Open Scope Z_scope.

(** Arguments extract_contours is meant for: coordinates and data of the same shape, at least one point.  [fuel] bounds the rounds of the loops: a bound
    that grows with the mesh, so "for every fuel above it" says that tracing ends. *)
Definition meshed {num} (x y z : mat num) : Prop :=
  m_rows num x = m_rows num z /\ m_cols num x = m_cols num z /\ m_rows num y = m_rows num z /\ m_cols num y = m_cols num z /\ 1 <= m_rows num z /\ 1 <= m_cols num z.
Definition enough {num} (z : mat num) (fuel : nat) : Prop := 4 * (m_cols num z * m_rows num z) + 2 < Z.of_nat fuel.

Section Any.
(** Any arithmetic, in particular that of double with infinities and NaN *)
Variable num : Type.
Variables add sub mul div : num -> num -> num.
Variable four : num.
Variables gtb eqn : num -> num -> bool.
Notation extract := (extract_contours num add sub mul div four gtb eqn).
Notation above := (above_of num gtb).
(** The vertices drawn for a curve, and the list of the arrays for all curves *)
Definition drawn (x y z : mat num) (level : num) (curves : list (list (Z * Z))) : list (item num) := map (fun c => Verts num (map (vertex num add sub mul div x y z level) c)) curves.

Lemma master fuel mem x y z level : meshed x y z -> enough z fuel -> exists T curves codes, extract fuel mem x y z level = Ok (drawn x y z level curves, map (fun c => Codes num (codes c)) curves) /\
  (forall c, In c curves -> codes c = moveto :: repeat lineto (length c - 1)) /\
  cntr_trace (m_cols num z) (m_rows num z) (above z level) (centre_of num add div four gtb z level) fuel mem = Ok curves /\
  (forall p, exists d, T p = mean_of (m_cols num z) (centre_of num add div four gtb z level) d (flat (m_cols num z) p)) /\
  Forall (is_curve (m_cols num z) (m_rows num z) (above z level)) curves /\
  (2 <= m_cols num z -> 2 <= m_rows num z -> forall e, side (m_cols num z) (m_rows num z) e -> crossed (above z level) e -> total_visits e curves = 1%nat) /\
  Forall (cuts_off (m_cols num z) (m_rows num z) (above z level) (fun c => T (fst c + 1, snd c + 1))) curves.
Proof.
  intros [A [B [C [D [E F]]]]] Hf. destruct (trace_total (m_cols num z) (m_rows num z) (above z level) (centre_of num add div four gtb z level) F E fuel mem Hf) as [T [curves [Ht [HT [Fc [Tv Cu]]]]]].
  assert (L2 : Forall (fun c => (2 <= length c)%nat) curves) by (refine (Forall_impl _ _ Fc); intros c Hc; apply (cv_length _ _ _ _ Hc)).
  exists T, curves, (fun c => codes_of num (map (vertex num add sub mul div x y z level) c)). split; [apply extract_ok; assumption|]. split; [|auto 6].
  intros c Hc. rewrite Forall_forall in L2. specialize (L2 c Hc). destruct c as [|e c]; [cbn in L2; lia|]. cbn [map codes_of length]. f_equal. replace (S (length c) - 1)%nat with (length c) by lia. clear. induction c as [|a c IH]; [reflexivity|]. cbn. f_equal. exact IH.
Qed.

(** *** C64 *)
(** Every array access of the model is checked: outside the array it would give [Err IndexError].  For a mesh with points there is no such access, no
    other error either, and no fuel is missing. *)
Theorem C64_tracing_stays_inside_the_arrays fuel mem x y z level : meshed x y z -> enough z fuel -> exists segments codes, extract fuel mem x y z level = Ok (segments, codes).
Proof. intros M F. destruct (master fuel mem x y z level M F) as [T [curves [codes [-> _]]]]. eauto. Qed.
(** A mesh without points: the first value is read all the same *)
Theorem C64_empty_mesh_refuted fuel mem x y z level : m_rows num x = m_rows num z -> m_cols num x = m_cols num z -> m_rows num y = m_rows num z -> m_cols num y = m_cols num z -> m_rows num z * m_cols num z = 0 ->
  extract fuel mem x y z level = Err IndexError.
Proof. intros A B C D E. unfold extract_contours, trace, cntr_init. rewrite A, B, C, D, !Z.eqb_refl. cbn [andb bind fst snd]. rewrite empty_trace by lia. reflexivity. Qed.

(** *** C65 *)
Theorem C65_contours_close_or_join_the_boundary fuel mem x y z level : meshed x y z -> enough z fuel -> exists curves codes, extract fuel mem x y z level = Ok (drawn x y z level curves, codes) /\ Forall (is_curve (m_cols num z) (m_rows num z) (above z level)) curves.
Proof. intros M F. destruct (master fuel mem x y z level M F) as [T [curves [codes [E [_ [_ [_ [Fc _]]]]]]]]. eexists. eexists. split; [exact E|exact Fc]. Qed.
(** A closed contour ends with exactly the vertex it starts with, whatever the rounding *)
Theorem C65_closed_contours_repeat_their_first_vertex x y z level c : closed_curve c -> exists v, let vs := map (vertex num add sub mul div x y z level) c in (exists l, vs = v :: l) /\ (exists l, vs = l ++ [v]).
Proof. intros [e [[l1 H1] [l2 H2]]]. exists (vertex num add sub mul div x y z level e). cbv zeta. split; [rewrite H1; eexists; reflexivity|]. rewrite H2, map_app. eexists. reflexivity. Qed.

(** *** C66 *)
Theorem C66_vertices_and_codes_correspond fuel mem x y z level segments codes : meshed x y z -> enough z fuel -> extract fuel mem x y z level = Ok (segments, codes) ->
  exists pairs, segments = map (fun p => Verts num (fst p)) pairs /\ codes = map (fun p => Codes num (snd p)) pairs /\ forall v c, In (v, c) pairs -> length v = length c /\ (2 <= length v)%nat /\ c = moveto :: repeat lineto (length v - 1).
Proof.
  intros M F E. destruct (master fuel mem x y z level M F) as [T [curves [cd [E' [Hc [_ [_ [Fc _]]]]]]]]. rewrite E' in E. injection E as <- <-.
  exists (map (fun c => (map (vertex num add sub mul div x y z level) c, cd c)) curves). split; [rewrite map_map; reflexivity|]. split; [rewrite map_map; reflexivity|].
  intros v c H. apply in_map_iff in H as [e [H Ie]]. injection H as <- <-. rewrite Forall_forall in Fc. pose proof (cv_length _ _ _ _ (Fc e Ie)). rewrite (Hc e Ie), map_length. cbn [length]. rewrite repeat_length. split; [lia|]. split; [assumption|reflexivity].
Qed.

(** *** C76 *)
Theorem C76_every_crossed_side_is_visited_once fuel mem x y z level : meshed x y z -> 2 <= m_rows num z -> 2 <= m_cols num z -> enough z fuel -> exists curves codes, extract fuel mem x y z level = Ok (drawn x y z level curves, codes) /\
  (forall e, side (m_cols num z) (m_rows num z) e -> crossed (above z level) e -> total_visits e curves = 1%nat) /\ (forall c e, In c curves -> In e c -> side (m_cols num z) (m_rows num z) e /\ crossed (above z level) e).
Proof.
  intros M R2 C2 F. destruct (master fuel mem x y z level M F) as [T [curves [codes [E [_ [_ [_ [Fc [Tv _]]]]]]]]]. eexists. eexists. split; [exact E|]. split; [exact (Tv C2 R2)|]. intros c e Hc He. rewrite Forall_forall in Fc. exact (cv_sides _ _ _ _ (Fc c Hc) e He).
Qed.

(** *** C78 *)
Theorem C78_result_does_not_depend_on_uninitialised_memory fuel mem mem' x y z level : 0 <= m_rows num z -> 0 <= m_cols num z -> extract fuel mem x y z level = extract fuel mem' x y z level.
Proof.
  intros R C. unfold extract_contours, trace, cntr_init. destruct (_ && _)%bool; [|reflexivity]. cbn [bind fst snd]. rewrite (trace_mem _ _ _ _ fuel mem mem' C R). reflexivity.
Qed.
End Any.

(** *** Real arithmetic *)
Definition Rgtb (a b : R) : bool := if Rlt_dec b a then true else false.
Definition Reqb (a b : R) : bool := if Req_EM_T a b then true else false.
Definition extractR := extract_contours R Rplus Rminus Rmult Rdiv 4%R Rgtb Reqb.
Lemma Rgtb_true a b : Rgtb a b = true <-> (b < a)%R. Proof. unfold Rgtb. destruct (Rlt_dec b a); split; intro; try discriminate; auto; contradiction. Qed.
Lemma Rgtb_false a b : Rgtb a b = false <-> (a <= b)%R. Proof. unfold Rgtb. destruct (Rlt_dec b a); split; intro; try discriminate; try lra; auto. Qed.

(** *** C63 *)
(** A vertex at a fraction t of the way from p to q *)
Definition between (x y : mat R) (p q : Z) (t : R) (v : R * R) : Prop := (v = (m_at R x p + t * (m_at R x q - m_at R x p), m_at R y p + t * (m_at R y q - m_at R y p)))%R.
Theorem C63_vertices_lie_where_the_level_is_met fuel mem x y z level segments codes vs v : meshed x y z -> enough z fuel -> extractR fuel mem x y z level = Ok (segments, codes) -> In (Verts R vs) segments -> In v vs ->
  exists p q t, side (m_cols R z) (m_rows R z) (p, q) /\ (level < m_at R z p)%R /\ (m_at R z q <= level)%R /\ (0 < t <= 1)%R /\ (m_at R z p + t * (m_at R z q - m_at R z p) = level)%R /\ between x y p q t v.
Proof.
  intros M F E Hs Hv. unfold extractR in E. destruct (master R Rplus Rminus Rmult Rdiv 4%R Rgtb Reqb fuel mem x y z level M F) as [T [curves [cd [E' [_ [_ [_ [Fc _]]]]]]]]. rewrite E' in E. injection E as <- _.
  apply in_map_iff in Hs as [c [Ec Hc]]. injection Ec as <-. apply in_map_iff in Hv as [[p q] [<- He]]. rewrite Forall_forall in Fc. destruct (cv_sides _ _ _ _ (Fc c Hc) _ He) as [Sd Cr].
  unfold crossed, above_of in Cr. cbn [fst snd] in Cr. unfold vertex, between. set (zp := m_at R z p) in *. set (zq := m_at R z q) in *.
  destruct (Rgtb zp level) eqn:P, (Rgtb zq level) eqn:Q; try congruence.
  - apply Rgtb_true in P. apply Rgtb_false in Q. exists p, q, ((level - zp) / (zq - zp))%R. fold zp zq. assert (D : (zp - zq > 0)%R) by lra. assert (Et : ((level - zp) / (zq - zp) = (zp - level) / (zp - zq))%R) by (field; lra).
    split; [exact Sd|]. split; [exact P|]. split; [exact Q|]. split.
    + rewrite Et. split; [apply Rdiv_lt_0_compat; lra|]. apply (Rmult_le_reg_r (zp - zq)); [lra|]. unfold Rdiv. rewrite Rmult_assoc, Rinv_l by lra. lra.
    + split; [field; lra|]. f_equal; ring.
  - apply Rgtb_false in P. apply Rgtb_true in Q. exists q, p, ((level - zq) / (zp - zq))%R. fold zp zq. assert (D : (zq - zp > 0)%R) by lra. assert (Et : ((level - zq) / (zp - zq) = (zq - level) / (zq - zp))%R) by (field; lra).
    split; [|split; [exact Q|split; [exact P|split]]].
    + destruct Sd as [S1 [S2 S3]]. split; [exact S2|]. split; [exact S1|]. lia.
    + rewrite Et. split; [apply Rdiv_lt_0_compat; lra|]. apply (Rmult_le_reg_r (zq - zp)); [lra|]. unfold Rdiv. rewrite Rmult_assoc, Rinv_l by lra. lra.
    + split; [field; lra|]. f_equal; field; lra.
Qed.

(** *** C77 *)
(** The mean of the corners of a cell is above the level *)
Definition mean_above (z : mat R) (level : R) (c : Z * Z) : bool :=
  Rgtb ((m_at R z (corner (m_cols R z) c 0 0) + m_at R z (corner (m_cols R z) c 1 0) + m_at R z (corner (m_cols R z) c 0 1) + m_at R z (corner (m_cols R z) c 1 1)) / 4)%R level.
Theorem C77_ambiguous_cells_follow_the_mean fuel mem x y z level : meshed x y z -> enough z fuel -> exists curves codes, extractR fuel mem x y z level = Ok (drawn R Rplus Rminus Rmult Rdiv x y z level curves, codes) /\
  Forall (cuts_off (m_cols R z) (m_rows R z) (above_of R Rgtb z level) (mean_above z level)) curves.
Proof.
  intros M F. destruct (master R Rplus Rminus Rmult Rdiv 4%R Rgtb Reqb fuel mem x y z level M F) as [T [curves [codes [E [_ [_ [HT [_ [_ Cu]]]]]]]]]. eexists. eexists. split; [exact E|].
  refine (Forall_impl _ _ Cu). intros c Hc e f q H1 H2 H3 H4. destruct (Hc e f q H1 H2 H3 H4) as [p [P1 [P2 P3]]]. exists p. split; [exact P1|]. split; [exact P2|]. rewrite P3. f_equal. destruct (HT (fst q + 1, snd q + 1)) as [d ->]. clear. unfold mean_above, mean_of, centre_of, corner, flat. cbn [fst snd]. set (w := m_cols R z).
  replace (fst q + 0 + (snd q + 0) * w) with (fst q + 1 + (snd q + 1) * w - w - 1) by ring. replace (fst q + 1 + (snd q + 0) * w) with (fst q + 1 + (snd q + 1) * w - w) by ring. replace (fst q + 0 + (snd q + 1) * w) with (fst q + 1 + (snd q + 1) * w - 1) by ring.
  destruct d; f_equal; field.
Qed.

(** *** The hypotheses are met *)
(** A summit in the middle of 4 x 3 points, with rational numbers: one closed contour of seven vertices; a saddle in one cell: two contours *)
Definition matQ (rows cols : Z) (l : list Q) : mat Q := mkMat Q rows cols (fun k => nth (Z.to_nat k) l 0%Q).
Definition extractQ := extract_contours Q (fun a b => Qred (a + b)) (fun a b => Qred (a - b)) (fun a b => Qred (a * b)) (fun a b => Qred (a / b)) 4%Q (fun a b => negb (Qle_bool a b)) Qeq_bool.
Definition exX : mat Q := matQ 3 4 [0; 1; 2; 3; 0; 1; 2; 3; 0; 1; 2; 3]%Q.
Definition exY : mat Q := matQ 3 4 [0; 0; 0; 0; 1; 1; 1; 1; 2; 2; 2; 2]%Q.
Definition exZ : mat Q := matQ 3 4 [0; 0; 0; 0; 0; 4; 2; 0; 0; 0; 0; 0]%Q.
Example C63_summit_meshed : meshed exX exY exZ /\ enough exZ 60. Proof. unfold meshed, enough. cbn. lia. Qed.
Example C63_summit : extractQ 60 (fun _ => blank) exX exY exZ 1%Q =
  Ok ([Verts Q [(1, 1 # 4); (2, 1 # 2); (5 # 2, 1); (2, 3 # 2); (1, 7 # 4); (1 # 4, 1); (1, 1 # 4)]%Q], [Codes Q [1; 2; 2; 2; 2; 2; 2]]).
Proof. vm_compute. reflexivity. Qed.
Definition exS : mat Q := matQ 2 2 [1; 0; 0; 1]%Q.
Example C77_saddle_meshed : meshed (matQ 2 2 [0; 1; 0; 1]%Q) (matQ 2 2 [0; 0; 1; 1]%Q) exS /\ enough exS 60 /\ ambiguous 2 (above_of Q (fun a b => negb (Qle_bool a b)) exS (1 # 4)) (0, 0).
Proof. unfold meshed, enough. cbn. split; [lia|]. split; [lia|]. vm_compute. split; [reflexivity|]. split; [reflexivity|discriminate]. Qed.
Example C77_saddle_low : exists a b c d, extractQ 60 (fun _ => blank) (matQ 2 2 [0; 1; 0; 1]%Q) (matQ 2 2 [0; 0; 1; 1]%Q) exS (1 # 4) = Ok ([Verts Q [a; b]; Verts Q [c; d]], [Codes Q [1; 2]; Codes Q [1; 2]]).
Proof. vm_compute. eauto. Qed.
Definition zR : mat R := mkMat R 2 2 (fun k => if k =? 0 then 1%R else 0%R).
Example C63_real_meshed : meshed zR zR zR /\ enough zR 60. Proof. unfold meshed, enough. cbn. lia. Qed.
Example C64_empty : m_rows Q (matQ 0 5 []) * m_cols Q (matQ 0 5 []) = 0. Proof. reflexivity. Qed.

Print Assumptions C63_vertices_lie_where_the_level_is_met.
Print Assumptions C64_tracing_stays_inside_the_arrays.
Print Assumptions C64_empty_mesh_refuted.
Print Assumptions C65_contours_close_or_join_the_boundary.
Print Assumptions C65_closed_contours_repeat_their_first_vertex.
Print Assumptions C66_vertices_and_codes_correspond.
Print Assumptions C76_every_crossed_side_is_visited_once.
Print Assumptions C77_ambiguous_cells_follow_the_mean.
Print Assumptions C78_result_does_not_depend_on_uninitialised_memory.

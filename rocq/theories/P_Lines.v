(** C103-C106: the lines drawn for a level *)
From Coq Require Import Lia Permutation Reals Lra FunctionalExtensionality.
From Verif Require Import M_Base M_Cntr M_Extract S_Cntr S_Lines L_Cntr2 L_Cntr7 L_Cntr10 L_Cntr11 L_Cntr12 L_Extract L_Lines P_Cntr.
Local Open Scope Z_scope.

(** *** any arithmetic *)
Section Any.
Variable num : Type.
Variables add sub mul div : num -> num -> num.
Variable four : num.
Variables gtb eqn : num -> num -> bool.
Notation extract := (extract_contours num add sub mul div four gtb eqn).
(** The middle of cell q is above the level, for one of the orders in which the four corners can be added *)
Definition middle_above (z : mat num) (level : num) (q : Z * Z) (b : bool) : Prop :=
  exists c1 c2 c3 c4, Permutation [c1; c2; c3; c4] [corner (m_cols num z) q 0 0; corner (m_cols num z) q 1 0; corner (m_cols num z) q 0 1; corner (m_cols num z) q 1 1] /\
    b = gtb (div (add (add (add (m_at num z c1) (m_at num z c2)) (m_at num z c3)) (m_at num z c4)) four) level.
Lemma master_lines fuel mem x y z level : meshed x y z -> enough z fuel -> exists T curves, extract fuel mem x y z level = Ok (drawn num add sub mul div x y z level curves, map (fun c => Codes num (codes_of num (map (vertex num add sub mul div x y z level) c))) curves) /\
  Forall (is_curve (m_cols num z) (m_rows num z) (above_of num gtb z level)) curves /\
  (forall p, exists d, T p = mean_of (m_cols num z) (centre_of num add div four gtb z level) d (flat (m_cols num z) p)) /\
  forall e f, runs_between curves e f <-> joined (m_cols num z) (m_rows num z) (above_of num gtb z level) (fun c => T (fst c + 1, snd c + 1)) e f.
Proof.
  intros [A [B [C [D [E F]]]]] Hf. destruct (trace_lines (m_cols num z) (m_rows num z) (above_of num gtb z level) (centre_of num add div four gtb z level) fuel mem F E Hf) as [T [curves [Ht [HT J]]]].
  destruct (trace_total (m_cols num z) (m_rows num z) (above_of num gtb z level) (centre_of num add div four gtb z level) F E fuel mem Hf) as [T' [curves' [Ht' [_ [Fc _]]]]]. rewrite Ht in Ht'. injection Ht' as <-.
  exists T, curves. split; [|auto]. apply extract_ok; try assumption. refine (Forall_impl _ _ Fc). intros c Hc. apply (cv_length _ _ _ _ Hc).
Qed.
Theorem C103_lines_in_any_arithmetic fuel mem x y z level : meshed x y z -> enough z fuel -> exists curves codes middle, extract fuel mem x y z level = Ok (drawn num add sub mul div x y z level curves, codes) /\
  (forall q, middle_above z level q (middle q)) /\
  forall e f, runs_between curves e f <-> joined (m_cols num z) (m_rows num z) (above_of num gtb z level) middle e f.
Proof.
  intros M Hf. destruct (master_lines fuel mem x y z level M Hf) as [T [curves [E [_ [HT J]]]]]. exists curves. eexists. exists (fun c => T (fst c + 1, snd c + 1)). split; [exact E|]. split; [|exact J].
  intro q. destruct (HT (fst q + 1, snd q + 1)) as [d ->]. unfold middle_above, mean_of, centre_of, flat, corner. cbn [fst snd]. set (w := m_cols num z). set (k := fst q + 1 + (snd q + 1) * w).
  replace (fst q + 0 + (snd q + 0) * w) with (k - w - 1) by (unfold k; ring). replace (fst q + 1 + (snd q + 0) * w) with (k - w) by (unfold k; ring). replace (fst q + 0 + (snd q + 1) * w) with (k - 1) by (unfold k; ring).
  destruct d; eexists; eexists; eexists; eexists; (split; [|reflexivity]).
  - change (Permutation [k - w; k - w - 1; k; k - 1] [k - w - 1; k - w; k - 1; k]). eapply perm_trans; [apply perm_swap|]. do 2 apply perm_skip. apply perm_swap.
  - change (Permutation ([k - 1; k] ++ [k - w - 1; k - w]) ([k - w - 1; k - w] ++ [k - 1; k])). apply Permutation_app_comm.
  - change (Permutation [k - w - 1; k - 1; k - w; k] [k - w - 1; k - w; k - 1; k]). apply perm_skip, perm_swap.
  - change (Permutation [k; k - w; k - 1; k - w - 1] [k - w - 1; k - w; k - 1; k]). eapply perm_trans; [apply Permutation_rev|]. cbn [rev app]. apply perm_skip, perm_swap.
Qed.
End Any.
Print Assumptions C103_lines_in_any_arithmetic.

(** *** real arithmetic *)
Open Scope R_scope.
(** Vertex v is the point of side e where the level is met. *)
Definition meets (x y z : mat R) (level : R) (e : Z * Z) (v : R * R) : Prop :=
  exists t, m_at R z (fst e) + t * (m_at R z (snd e) - m_at R z (fst e)) = level /\ between x y (fst e) (snd e) t v.
(** A line from u to v belongs to the contours of the level. *)
Definition in_contour (x y z : mat R) (level : R) (u v : R * R) : Prop :=
  exists e f, joined (m_cols R z) (m_rows R z) (above_of R Rgtb z level) (mean_above z level) e f /\ meets x y z level e u /\ meets x y z level f v.
Lemma crossed_ne z level e : crossed (above_of R Rgtb z level) e -> m_at R z (fst e) <> m_at R z (snd e).
Proof. unfold crossed, above_of. intros H E. apply H. rewrite E. reflexivity. Qed.
Lemma vertex_meets x y z level e : crossed (above_of R Rgtb z level) e -> meets x y z level e (vertex R Rplus Rminus Rmult Rdiv x y z level e).
Proof.
  intro C. apply crossed_ne in C. destruct e as [p q]. cbn [fst snd] in C. exists ((level - m_at R z p) / (m_at R z q - m_at R z p)). unfold between, vertex. cbn [fst snd]. split; [field; lra|]. f_equal; ring.
Qed.
Lemma meets_vertex x y z level e v : crossed (above_of R Rgtb z level) e -> meets x y z level e v -> v = vertex R Rplus Rminus Rmult Rdiv x y z level e.
Proof.
  intro C. apply crossed_ne in C. destruct e as [p q]. cbn [fst snd] in C. intros [t [E B]]. cbn [fst snd] in E, B. unfold between in B. subst v. unfold vertex.
  assert (Et : t = (level - m_at R z p) / (m_at R z q - m_at R z p)) by (apply (Rmult_eq_reg_r (m_at R z q - m_at R z p)); [|lra]; field_simplify; lra). rewrite Et. f_equal; ring.
Qed.
Lemma meets_same x y z level e f v : same_side e f -> meets x y z level e v -> meets x y z level f v.
Proof. intros [->| ->]; [auto|]. destruct e as [p q]. intros [t [E B]]. exists (1 - t). cbn [fst snd] in *. split; [lra|]. unfold between in *. rewrite B. f_equal; ring. Qed.
Lemma drawn_split x y z level c l1 l2 u v : map (vertex R Rplus Rminus Rmult Rdiv x y z level) c = (l1 ++ u :: v :: l2)%list -> exists e f, next_in c e f /\ u = vertex R Rplus Rminus Rmult Rdiv x y z level e /\ v = vertex R Rplus Rminus Rmult Rdiv x y z level f.
Proof.
  intro E. apply map_eq_app in E as [a [b [-> [_ E]]]]. apply map_eq_cons in E as [e [b' [-> [<- E]]]]. apply map_eq_cons in E as [f [b'' [-> [<- _]]]]. exists e, f. split; [exists a, b''; reflexivity|auto].
Qed.
Lemma mean_T z level T q : (exists d, T (fst q + 1, snd q + 1)%Z = mean_of (m_cols R z) (centre_of R Rplus Rdiv 4 Rgtb z level) d (flat (m_cols R z) (fst q + 1, snd q + 1)%Z)) -> T (fst q + 1, snd q + 1)%Z = mean_above z level q.
Proof.
  intros [d ->]. unfold mean_above, mean_of, centre_of, corner, flat. cbn [fst snd]. set (w := m_cols R z).
  replace (fst q + 0 + (snd q + 0) * w)%Z with (fst q + 1 + (snd q + 1) * w - w - 1)%Z by ring. replace (fst q + 1 + (snd q + 0) * w)%Z with (fst q + 1 + (snd q + 1) * w - w)%Z by ring. replace (fst q + 0 + (snd q + 1) * w)%Z with (fst q + 1 + (snd q + 1) * w - 1)%Z by ring.
  destruct d; f_equal; field.
Qed.
Lemma joined_middle cols rows above m m' e f : (forall q, m q = m' q) -> joined cols rows above m e f -> joined cols rows above m' e f.
Proof. intros H [A [B [C [q [Q1 [Q2 D]]]]]]. split; [exact A|]. split; [exact B|]. split; [exact C|]. exists q. split; [exact Q1|]. split; [exact Q2|]. rewrite <- H. exact D. Qed.

(** *** C103 *)
(** The lines drawn are exactly the lines of the level: none is missing, none is added. *)
Theorem C103_lines_drawn : forall fuel mem x y z level segments codes, meshed x y z -> enough z fuel -> extractR fuel mem x y z level = Ok (segments, codes) ->
  forall u v, line segments u v <-> in_contour x y z level u v.
Proof.
  intros fuel mem x y z level segments codes M F E u v. unfold extractR in E. destruct (master_lines R Rplus Rminus Rmult Rdiv 4 Rgtb Reqb fuel mem x y z level M F) as [T [curves [E' [Fc [HT J]]]]]. rewrite E' in E. injection E as <- _. rewrite Forall_forall in Fc.
  assert (J' : forall e f, runs_between curves e f <-> joined (m_cols R z) (m_rows R z) (above_of R Rgtb z level) (mean_above z level) e f).
  { intros e f. rewrite J. split; apply joined_middle; intro q; [|symmetry]; apply mean_T, HT. }
  clear J HT E'. set (V := vertex R Rplus Rminus Rmult Rdiv x y z level).
  assert (Sd : forall c e, In c curves -> In e c -> crossed (above_of R Rgtb z level) e) by (intros c e Hc He; apply (cv_sides _ _ _ _ (Fc c Hc) e He)).
  assert (Nx : forall c e f, next_in c e f -> In e c /\ In f c) by (intros c e f [l1 [l2 ->]]; split; apply in_or_app; right; [left|right; left]; reflexivity).
  split.
  - intros [vs [l1 [l2 [Hv Hl]]]]. apply in_map_iff in Hv as [c [Ec Hc]]. injection Ec as <-. destruct Hl as [Hl|Hl]; apply drawn_split in Hl as [e [f [Hn [-> ->]]]]; destruct (Nx _ _ _ Hn) as [He Hf].
    + exists e, f. split; [apply J'; exists c, e, f; split; [exact Hc|]; split; [left; reflexivity|]; split; [left; reflexivity|left; exact Hn]|]. split; apply vertex_meets; eapply Sd; eassumption.
    + exists f, e. split; [apply J'; exists c, f, e; split; [exact Hc|]; split; [left; reflexivity|]; split; [left; reflexivity|right; exact Hn]|]. split; apply vertex_meets; eapply Sd; eassumption.
  - intros [e [f [Hj [Hu Hw]]]]. apply J' in Hj as [c [e' [f' [Hc [Se [Sf Hn]]]]]]. apply (meets_same _ _ _ _ _ _ _ Se) in Hu. apply (meets_same _ _ _ _ _ _ _ Sf) in Hw. exists (map V c).
    destruct Hn as [Hn|Hn]; destruct (Nx _ _ _ Hn) as [He Hf]; apply meets_vertex in Hu; try (eapply Sd; eassumption); apply meets_vertex in Hw; try (eapply Sd; eassumption); subst u v; destruct Hn as [l1 [l2 E]]; exists (map V l1), (map V l2); (split; [apply in_map_iff; exists c; auto|]); rewrite E, map_app; [left|right]; reflexivity.
Qed.
Print Assumptions C103_lines_drawn.

(** *** C105 *)
Section Turned.
Variables cols rows cols' rows' : Z.
Variables x y z x' y' z' : mat R.
Hypothesis D1 : m_cols R z = cols.  Hypothesis D2 : m_rows R z = rows.  Hypothesis D3 : m_cols R z' = cols'.  Hypothesis D4 : m_rows R z' = rows'.
Variable g : Z -> Z.
Variable h : Z * Z -> Z * Z.
Hypothesis G1 : forall e, side cols rows e -> side cols' rows' (g (fst e), g (snd e)).
Hypothesis G2 : forall a b, S_Cntr.in_mesh cols rows a -> S_Cntr.in_mesh cols rows b -> g a = g b -> a = b.
Hypothesis G3 : forall a, S_Cntr.in_mesh cols rows a -> m_at R z' (g a) = m_at R z a /\ m_at R x' (g a) = m_at R x a /\ m_at R y' (g a) = m_at R y a.
Hypothesis G4 : forall q a, is_cell cols rows q -> S_Cntr.in_mesh cols rows a -> point_of_cell cols q a -> is_cell cols' rows' (h q) /\ point_of_cell cols' (h q) (g a).
Hypothesis G5 : forall q, is_cell cols rows q -> let V := fun a b => m_at R z (corner cols q a b) in let V' := fun a b => m_at R z' (corner cols' (h q) a b) in
  (V' 0 0 = V 0 1 /\ V' 1 0 = V 1 1 /\ V' 0 1 = V 0 0 /\ V' 1 1 = V 1 0)%Z \/ (V' 0 0 = V 1 0 /\ V' 1 0 = V 0 0 /\ V' 0 1 = V 1 1 /\ V' 1 1 = V 0 1)%Z \/ (V' 0 0 = V 0 0 /\ V' 1 0 = V 0 1 /\ V' 0 1 = V 1 0 /\ V' 1 1 = V 1 1)%Z.
Variable level : R.
Lemma turned_contour u v : in_contour x y z level u v -> in_contour x' y' z' level u v.
Proof.
  intros [e [f [[N [C1 [C2 [q [Q1 [Q2 Am]]]]]] [Hu Hv]]]]. rewrite D1, D2 in *. pose proof Q1 as [Cq [Se [P1 P2]]]. pose proof Q2 as [_ [Sf [P3 P4]]].
  assert (Me : S_Cntr.in_mesh cols rows (fst e) /\ S_Cntr.in_mesh cols rows (snd e)) by (destruct e; destruct Se as [A [B _]]; auto). assert (Mf : S_Cntr.in_mesh cols rows (fst f) /\ S_Cntr.in_mesh cols rows (snd f)) by (destruct f; destruct Sf as [A [B _]]; auto).
  assert (Ab : forall a, S_Cntr.in_mesh cols rows a -> above_of R Rgtb z' level (g a) = above_of R Rgtb z level a) by (intros a Ha; unfold above_of; rewrite (proj1 (G3 a Ha)); reflexivity).
  assert (Mt : forall e v, S_Cntr.in_mesh cols rows (fst e) -> S_Cntr.in_mesh cols rows (snd e) -> meets x y z level e v -> meets x' y' z' level (g (fst e), g (snd e)) v).
  { intros e0 v0 A B [t [T1 T2]]. destruct (G3 _ A) as [a1 [a2 a3]], (G3 _ B) as [b1 [b2 b3]]. exists t. unfold between in *. cbn [fst snd]. rewrite a1, a2, a3, b1, b2, b3. auto. }
  exists (g (fst e), g (snd e)), (g (fst f), g (snd f)). rewrite D3, D4. split; [|split; apply Mt; tauto].
  split; [|split; [|split]].
  - intro S. apply N. destruct e as [a b], f as [c d]. unfold same_side in *. cbn [fst snd] in *. destruct S as [S|S]; injection S as S1 S2; apply G2 in S1; try tauto; apply G2 in S2; try tauto; subst; auto.
  - unfold crossed in *. cbn [fst snd]. rewrite !Ab by tauto. exact C1.
  - unfold crossed in *. cbn [fst snd]. rewrite !Ab by tauto. exact C2.
  - exists (h q). destruct (G4 q (fst e) Cq) as [Ch Pe1]; try tauto. destruct (G4 q (snd e) Cq) as [_ Pe2]; try tauto. destruct (G4 q (fst f) Cq) as [_ Pf1]; try tauto. destruct (G4 q (snd f) Cq) as [_ Pf2]; try tauto.
    split; [split; [exact Ch|]; split; [apply G1, Se|]; split; assumption|]. split; [split; [exact Ch|]; split; [apply G1, Sf|]; split; assumption|].
    assert (Mm : mean_above z' level (h q) = mean_above z level q).
    { unfold mean_above. rewrite D3, D1. f_equal. f_equal. destruct (G5 q Cq) as [[A [B [C D]]]|[[A [B [C D]]]|[A [B [C D]]]]]; cbv zeta beta in *; rewrite A, B, C, D; ring. }
    assert (Aq : ambiguous cols' (above_of R Rgtb z' level) (h q) -> ambiguous cols (above_of R Rgtb z level) q).
    { unfold ambiguous, above_of. destruct (G5 q Cq) as [[A [B [C D]]]|[[A [B [C D]]]|[A [B [C D]]]]]; cbv zeta beta in *; rewrite A, B, C, D; intros [X1 [X2 X3]]; repeat split; congruence. }
    intro X. destruct (Am (Aq X)) as [p [K1 [K2 K3]]]. exists (g p). cbn [fst snd]. split; [destruct K1 as [->| ->]; auto|]. split; [destruct K2 as [->| ->]; auto|]. rewrite Mm, Ab; [exact K3|]. destruct K1 as [->| ->]; tauto.
Qed.
End Turned.

Lemma coords cols rows k : (1 <= cols)%Z -> S_Cntr.in_mesh cols rows k -> (0 <= col_of cols k < cols /\ 0 <= row_of cols k < rows /\ k = col_of cols k + row_of cols k * cols)%Z.
Proof.
  unfold S_Cntr.in_mesh, col_of, row_of. intros C H. pose proof (Z.mod_pos_bound k cols ltac:(lia)). pose proof (Z.div_mod k cols ltac:(lia)). split; [lia|]. split; [|lia].
  split; [apply Z.div_pos; lia|]. apply Z.div_lt_upper_bound; lia.
Qed.
Lemma at_coords cols rows i j : (0 <= i < cols -> 0 <= j < rows -> S_Cntr.in_mesh cols rows (i + j * cols) /\ col_of cols (i + j * cols) = i /\ row_of cols (i + j * cols) = j)%Z.
Proof. intros Hi Hj. split; [unfold S_Cntr.in_mesh; nia|]. unfold col_of, row_of. rewrite Z.mod_add, Z.div_add by lia. rewrite Z.mod_small, Z.div_small by lia. lia. Qed.
(** A change of the indices that moves the point in column i, row j to column gi i j, row gj i j *)
Definition moved_index (cols cols' : Z) (gi gj : Z -> Z -> Z) (k : Z) : Z := (gi (k mod cols) (k / cols) + gj (k mod cols) (k / cols) * cols')%Z.
Section Index.
Variables cols rows cols' rows' : Z.
Hypothesis C1 : (1 <= cols)%Z.
Variables gi gj : Z -> Z -> Z.
Hypothesis B : forall i j, (0 <= i < cols -> 0 <= j < rows -> 0 <= gi i j < cols' /\ 0 <= gj i j < rows')%Z.
Notation g := (moved_index cols cols' gi gj).
Lemma moved_coords k : S_Cntr.in_mesh cols rows k -> S_Cntr.in_mesh cols' rows' (g k) /\ col_of cols' (g k) = gi (col_of cols k) (row_of cols k) /\ row_of cols' (g k) = gj (col_of cols k) (row_of cols k).
Proof. intro H. destruct (coords cols rows k C1 H) as [Hi [Hj _]]. destruct (B _ _ Hi Hj). apply (at_coords cols' rows'); assumption. Qed.
Lemma moved_at i j : (0 <= i < cols -> 0 <= j < rows -> g (i + j * cols) = gi i j + gj i j * cols')%Z.
Proof. intros Hi Hj. destruct (at_coords cols rows i j Hi Hj) as [_ [E F]]. unfold col_of, row_of in *. unfold moved_index. rewrite E, F. reflexivity. Qed.
End Index.
(** The three changes; each is its own inverse, or the inverse is of the same kind *)
Inductive kind := UpsideDown | Mirrored | Transposed.
Definition kcols (k : kind) (cols rows : Z) : Z := match k with Transposed => rows | _ => cols end.
Definition krows (k : kind) (cols rows : Z) : Z := match k with Transposed => cols | _ => rows end.
Definition ki (k : kind) (cols rows i j : Z) : Z := match k with UpsideDown => i | Mirrored => cols - 1 - i | Transposed => j end%Z.
Definition kj (k : kind) (cols rows i j : Z) : Z := match k with UpsideDown => rows - 1 - j | Mirrored => j | Transposed => i end%Z.
Definition kcell (k : kind) (cols rows : Z) (q : Z * Z) : Z * Z := match k with UpsideDown => (fst q, rows - 2 - snd q) | Mirrored => (cols - 2 - fst q, snd q) | Transposed => (snd q, fst q) end%Z.
Definition kmat (k : kind) (m : mat R) : mat R := match k with UpsideDown => upside_down m | Mirrored => mirrored m | Transposed => transposed m end.
Notation kg k cols rows := (moved_index cols (kcols k cols rows) (ki k cols rows) (kj k cols rows)).
Lemma kbound k cols rows i j : (0 <= i < cols -> 0 <= j < rows -> 0 <= ki k cols rows i j < kcols k cols rows /\ 0 <= kj k cols rows i j < krows k cols rows)%Z.
Proof. destruct k; cbn; lia. Qed.
(** The values of the changed array *)
Lemma kmat_at k (m : mat R) i j : (0 <= i < m_cols R m -> 0 <= j < m_rows R m -> m_at R (kmat k m) (ki k (m_cols R m) (m_rows R m) i j + kj k (m_cols R m) (m_rows R m) i j * kcols k (m_cols R m) (m_rows R m)) = m_at R m (i + j * m_cols R m))%Z.
Proof.
  intros Hi Hj. destruct k; cbn [kmat upside_down mirrored transposed m_at ki kj kcols]; set (w := m_cols R m) in *; set (h := m_rows R m) in *; f_equal.
  - rewrite Z.mod_add, Z.div_add, Z.mod_small, Z.div_small by lia. lia.
  - rewrite Z.mod_add, Z.div_add, Z.mod_small, Z.div_small by lia. lia.
  - rewrite Z.mod_add, Z.div_add, Z.mod_small, Z.div_small by lia. lia.
Qed.
Lemma kmat_dim k (m : mat R) : m_cols R (kmat k m) = kcols k (m_cols R m) (m_rows R m) /\ m_rows R (kmat k m) = krows k (m_cols R m) (m_rows R m).
Proof. destruct k; split; reflexivity. Qed.
Lemma kback k cols rows i j : (ki k (kcols k cols rows) (krows k cols rows) (ki k cols rows i j) (kj k cols rows i j) = i /\ kj k (kcols k cols rows) (krows k cols rows) (ki k cols rows i j) (kj k cols rows i j) = j)%Z.
Proof. destruct k; cbn; lia. Qed.
Lemma kback2 k cols rows : kcols k (kcols k cols rows) (krows k cols rows) = cols /\ krows k (kcols k cols rows) (krows k cols rows) = rows.
Proof. destruct k; split; reflexivity. Qed.
(** Forward and backward, with the values of the arrays as a hypothesis *)
Lemma kturned k x y z x' y' z' level u v : (1 <= m_cols R z)%Z ->
  m_cols R z' = kcols k (m_cols R z) (m_rows R z) -> m_rows R z' = krows k (m_cols R z) (m_rows R z) ->
  (forall i j, 0 <= i < m_cols R z -> 0 <= j < m_rows R z -> let a := i + j * m_cols R z in let b := ki k (m_cols R z) (m_rows R z) i j + kj k (m_cols R z) (m_rows R z) i j * kcols k (m_cols R z) (m_rows R z) in
     m_at R z' b = m_at R z a /\ m_at R x' b = m_at R x a /\ m_at R y' b = m_at R y a)%Z ->
  in_contour x y z level u v -> in_contour x' y' z' level u v.
Proof.
  intros C Dc Dr Hv. set (w := m_cols R z) in *. set (h := m_rows R z) in *.
  apply (turned_contour w h (kcols k w h) (krows k w h) x y z x' y' z' eq_refl eq_refl Dc Dr (kg k w h) (kcell k w h)).
  - intros [p q] [Mp [Mq H]]. cbn [fst snd]. destruct (moved_coords w h (kcols k w h) (krows k w h) C _ _ (kbound k w h) p Mp) as [A1 [A2 A3]], (moved_coords w h (kcols k w h) (krows k w h) C _ _ (kbound k w h) q Mq) as [B1 [B2 B3]].
    split; [exact A1|]. split; [exact B1|]. rewrite A2, A3, B2, B3. destruct k; cbn; lia.
  - intros a b Ma Mb E. destruct (coords w h a C Ma) as [_ [_ Ea]], (coords w h b C Mb) as [_ [_ Eb]]. destruct (moved_coords w h (kcols k w h) (krows k w h) C _ _ (kbound k w h) a Ma) as [_ [A2 A3]], (moved_coords w h (kcols k w h) (krows k w h) C _ _ (kbound k w h) b Mb) as [_ [B2 B3]].
    rewrite E in A2, A3. rewrite A2 in B2. rewrite A3 in B3. rewrite Ea, Eb. destruct k; cbn in B2, B3; f_equal; try f_equal; lia.
  - intros a Ma. destruct (coords w h a C Ma) as [Hi [Hj Ea]]. rewrite Ea at 1 3 5. rewrite (moved_at w h) by assumption. destruct (Hv _ _ Hi Hj) as [V1 [V2 V3]]. rewrite V1, V2, V3, <- Ea. auto.
  - intros q a Cq Ma Pq. destruct (coords w h a C Ma) as [Hi [Hj _]]. destruct (moved_coords w h (kcols k w h) (krows k w h) C _ _ (kbound k w h) a Ma) as [_ [A2 A3]]. unfold is_cell, point_of_cell in *. rewrite A2, A3. destruct k; cbn in *; lia.
  - intros q Cq. cbv zeta. unfold is_cell in Cq. unfold corner.
    assert (Vc : forall a b, (0 <= a <= 1 -> 0 <= b <= 1 -> m_at R z' (ki k w h (fst q + a) (snd q + b) + kj k w h (fst q + a) (snd q + b) * kcols k w h) = m_at R z (fst q + a + (snd q + b) * w))%Z).
    { intros a b Ha Hb. apply (Hv (fst q + a)%Z (snd q + b)%Z); lia. }
    assert (L0 : (0 <= 0 <= 1)%Z) by lia. assert (L1 : (0 <= 1 <= 1)%Z) by lia. pose proof (Vc 0%Z 0%Z L0 L0) as V00. pose proof (Vc 1%Z 0%Z L1 L0) as V10. pose proof (Vc 0%Z 1%Z L0 L1) as V01. pose proof (Vc 1%Z 1%Z L1 L1) as V11. clear Vc Hv.
    destruct k; [left|right; left|right; right]; cbn [kcell ki kj kcols fst snd] in *.
    + rewrite <- V00, <- V10, <- V01, <- V11. repeat split; f_equal; ring.
    + rewrite <- V00, <- V10, <- V01, <- V11. repeat split; f_equal; ring.
    + rewrite <- V00, <- V10, <- V01, <- V11. repeat split; f_equal; ring.
Qed.
Lemma kcontour k x y z level u v : meshed x y z -> in_contour x y z level u v <-> in_contour (kmat k x) (kmat k y) (kmat k z) level u v.
Proof.
  intros [A [B [C [D [E F]]]]]. destruct (kmat_dim k z) as [K1 K2]. split.
  - apply kturned with (k := k); [exact F|exact K1|exact K2|]. intros i j Hi Hj. cbv zeta. split; [apply kmat_at; assumption|]. split.
    + pose proof (kmat_at k x i j) as H. rewrite A, B in H. apply H; assumption.
    + pose proof (kmat_at k y i j) as H. rewrite C, D in H. apply H; assumption.
  - set (w := m_cols R z) in *. set (h := m_rows R z) in *. destruct (kback2 k w h) as [W1 W2].
    apply kturned with (k := k); rewrite ?K1, ?K2.
    + destruct k; cbn; assumption.
    + symmetry. exact W1.
    + symmetry. exact W2.
    + intros i j Hi Hj. cbv zeta. rewrite W1. destruct (kbound k (kcols k w h) (krows k w h) i j Hi Hj) as [Bi Bj]. rewrite W1 in Bi. rewrite W2 in Bj.
      set (i' := ki k (kcols k w h) (krows k w h) i j) in *. set (j' := kj k (kcols k w h) (krows k w h) i j) in *.
      assert (Ei : ki k w h i' j' = i /\ kj k w h i' j' = j) by (unfold i', j'; destruct k; cbn; lia). destruct Ei as [Ei Ej].
      split; [|split].
      * pose proof (kmat_at k z i' j' Bi Bj) as H. fold w h in H. rewrite Ei, Ej in H. symmetry. exact H.
      * pose proof (kmat_at k x i' j') as H. rewrite A, B in H. specialize (H Bi Bj). fold w h in H. rewrite Ei, Ej in H. symmetry. exact H.
      * pose proof (kmat_at k y i' j') as H. rewrite C, D in H. specialize (H Bi Bj). fold w h in H. rewrite Ei, Ej in H. symmetry. exact H.
Qed.
Lemma kmeshed k x y z : meshed x y z -> meshed (kmat k x) (kmat k y) (kmat k z).
Proof. unfold meshed. destruct k; cbn; tauto. Qed.
Lemma kenough k z fuel : enough z fuel -> enough (kmat k z) fuel.
Proof. unfold enough. destruct k; cbn [kmat upside_down mirrored transposed m_cols m_rows]; intro H; try exact H. rewrite (Z.mul_comm (m_rows R z)). exact H. Qed.
Lemma ksame k fuel mem fuel' mem' x y z level s c s' c' : meshed x y z -> enough z fuel -> enough z fuel' ->
  extractR fuel mem x y z level = Ok (s, c) -> extractR fuel' mem' (kmat k x) (kmat k y) (kmat k z) level = Ok (s', c') -> same_lines s s'.
Proof.
  intros M F F' E E' u v. rewrite (C103_lines_drawn _ _ _ _ _ _ _ _ M F E), (C103_lines_drawn _ _ _ _ _ _ _ _ (kmeshed k _ _ _ M) (kenough k _ _ F') E'). apply kcontour, M.
Qed.
(** The lines drawn do not depend on the order of the rows (latitudes from north to south or from south to north), on the order of the columns, or on which of the
    two dimensions comes first. *)
Theorem C105_order_of_the_axes : forall fuel mem fuel' mem' x y z level s c s' c', meshed x y z -> enough z fuel -> enough z fuel' -> extractR fuel mem x y z level = Ok (s, c) ->
  (extractR fuel' mem' (upside_down x) (upside_down y) (upside_down z) level = Ok (s', c') -> same_lines s s') /\
  (extractR fuel' mem' (mirrored x) (mirrored y) (mirrored z) level = Ok (s', c') -> same_lines s s') /\
  (extractR fuel' mem' (transposed x) (transposed y) (transposed z) level = Ok (s', c') -> same_lines s s').
Proof.
  intros fuel mem fuel' mem' x y z level s c s' c' M F F' E. split; [|split]; intro E'.
  - exact (ksame UpsideDown fuel mem fuel' mem' x y z level s c s' c' M F F' E E').
  - exact (ksame Mirrored fuel mem fuel' mem' x y z level s c s' c' M F F' E E').
  - exact (ksame Transposed fuel mem fuel' mem' x y z level s c s' c' M F F' E E').
Qed.
Print Assumptions C105_order_of_the_axes.

(** *** C104 *)
Notation negated := (changed_values Ropp).
Lemma corner_mesh cols rows q a b : is_cell cols rows q -> (0 <= a <= 1 -> 0 <= b <= 1 -> S_Cntr.in_mesh cols rows (corner cols q a b))%Z.
Proof. unfold is_cell, S_Cntr.in_mesh, corner. intros H Ha Hb. nia. Qed.
Lemma joined_negated cols rows above above' middle middle' e f : (forall k, S_Cntr.in_mesh cols rows k -> above' k = negb (above k)) -> (forall q, is_cell cols rows q -> ambiguous cols above q -> middle' q = negb (middle q)) ->
  joined cols rows above middle e f -> joined cols rows above' middle' e f.
Proof.
  intros A M [N [C1 [C2 [q [Q1 [Q2 Am]]]]]]. pose proof Q1 as [Cq [Se _]]. pose proof Q2 as [_ [Sf _]].
  assert (Me : S_Cntr.in_mesh cols rows (fst e) /\ S_Cntr.in_mesh cols rows (snd e)) by (destruct e; destruct Se as [X [Y _]]; auto). assert (Mf : S_Cntr.in_mesh cols rows (fst f) /\ S_Cntr.in_mesh cols rows (snd f)) by (destruct f; destruct Sf as [X [Y _]]; auto).
  split; [exact N|]. unfold crossed in *. rewrite !A by tauto. split; [intro X; apply C1; destruct (above (fst e)), (above (snd e)); cbn in X; congruence|]. split; [intro X; apply C2; destruct (above (fst f)), (above (snd f)); cbn in X; congruence|].
  exists q. split; [exact Q1|]. split; [exact Q2|]. intro X. assert (Y : ambiguous cols above q) by (unfold ambiguous in *; rewrite !A in X by (apply corner_mesh; [exact Cq|lia|lia]); destruct (above (corner cols q 0 0)), (above (corner cols q 1 1)), (above (corner cols q 1 0)), (above (corner cols q 0 1)); cbn in X; destruct X as [X1 [X2 X3]]; repeat split; congruence).
  destruct (Am Y) as [p [P1 [P2 P3]]]. exists p. split; [exact P1|]. split; [exact P2|]. rewrite A by (destruct P1 as [->| ->]; tauto). rewrite P3, (M q (proj1 Q1) Y). reflexivity.
Qed.
Lemma Rgtb_opp a b : a <> b -> Rgtb (- a) (- b) = negb (Rgtb a b).
Proof. intro H. unfold Rgtb. destruct (Rlt_dec (- b) (- a)), (Rlt_dec b a); cbn; try reflexivity; lra. Qed.
Lemma Rgtb_opp2 a b : a <> b -> Rgtb a b = negb (Rgtb (- a) (- b)).
Proof. intro H. rewrite Rgtb_opp by exact H. rewrite negb_involutive. reflexivity. Qed.
Lemma mean_opp z level q : ((m_at R z (corner (m_cols R z) q 0 0) + m_at R z (corner (m_cols R z) q 1 0) + m_at R z (corner (m_cols R z) q 0 1) + m_at R z (corner (m_cols R z) q 1 1)) / 4 <> level) ->
  mean_above (negated z) (- level) q = negb (mean_above z level q).
Proof.
  intro H. unfold mean_above. cbn [changed_values m_cols m_at]. rewrite <- Rgtb_opp by exact H. f_equal. field.
Qed.
Lemma meets_negated x y z level e v : meets x y z level e v <-> meets x y (negated z) (- level) e v.
Proof. unfold meets. cbn [changed_values m_at]. split; intros [t [T1 T2]]; exists t; (split; [lra|exact T2]). Qed.
(** The contours of the reversed field at the reversed level are the same lines, when no value equals the level and no mean of the corners of an ambiguous cell does. *)
Theorem C104_reversed_field_partial : forall fuel mem fuel' mem' x y z level s c s' c', meshed x y z -> enough z fuel -> enough z fuel' ->
  (forall k, S_Cntr.in_mesh (m_cols R z) (m_rows R z) k -> m_at R z k <> level) ->
  (forall q, is_cell (m_cols R z) (m_rows R z) q -> ambiguous (m_cols R z) (above_of R Rgtb z level) q ->
     (m_at R z (corner (m_cols R z) q 0 0) + m_at R z (corner (m_cols R z) q 1 0) + m_at R z (corner (m_cols R z) q 0 1) + m_at R z (corner (m_cols R z) q 1 1)) / 4 <> level) ->
  extractR fuel mem x y z level = Ok (s, c) -> extractR fuel' mem' x y (negated z) (- level) = Ok (s', c') -> same_lines s s'.
Proof.
  intros fuel mem fuel' mem' x y z level s c s' c' M F F' V A E E' u v.
  assert (M' : meshed x y (negated z)) by exact M. rewrite (C103_lines_drawn _ _ _ _ _ _ _ _ M F E), (C103_lines_drawn _ _ _ _ _ _ _ _ M' F' E').
  assert (Ab : forall k, S_Cntr.in_mesh (m_cols R z) (m_rows R z) k -> above_of R Rgtb (negated z) (- level) k = negb (above_of R Rgtb z level k)) by (intros k Hk; unfold above_of; cbn [changed_values m_at]; apply Rgtb_opp, V, Hk).
  assert (Aq : forall q, is_cell (m_cols R z) (m_rows R z) q -> ambiguous (m_cols R z) (above_of R Rgtb (negated z) (- level)) q -> ambiguous (m_cols R z) (above_of R Rgtb z level) q).
  { intros q Cq X. unfold ambiguous in *. rewrite !Ab in X by (apply corner_mesh; [exact Cq|lia|lia]). set (a := above_of R Rgtb z level) in *. destruct (a (corner (m_cols R z) q 0 0)), (a (corner (m_cols R z) q 1 1)), (a (corner (m_cols R z) q 1 0)), (a (corner (m_cols R z) q 0 1)); cbn in X; destruct X as [X1 [X2 X3]]; repeat split; congruence. }
  split; intros [e [f [J [Hu Hv]]]]; exists e, f.
  - split; [|split; apply (proj1 (meets_negated _ _ _ _ _ _)); assumption]. refine (joined_negated _ _ _ _ _ _ _ _ Ab _ J). intros q Cq Hq. apply mean_opp, A; assumption.
  - split; [|split; apply (proj2 (meets_negated _ _ _ _ _ _)); assumption]. refine (joined_negated _ _ _ _ _ _ _ _ _ _ J).
    + intros k Hk. cbn [changed_values m_cols m_rows] in Hk. rewrite (Ab k Hk), negb_involutive. reflexivity.
    + intros q Cq Hq. rewrite mean_opp by (apply A; [exact Cq|]; apply Aq; assumption). rewrite negb_involutive. reflexivity.
Qed.
Print Assumptions C104_reversed_field_partial.
(** C104 is false without these conditions: a single point of height 1 in a field of zeros has no contour at level 1; in the reversed field a contour is drawn at level -1,
    all in one point. *)
Definition peakX : mat R := mkMat R 3 3 (fun k => IZR (k mod 3)).
Definition peakY : mat R := mkMat R 3 3 (fun k => IZR (k / 3)).
Definition peakZ : mat R := mkMat R 3 3 (fun k => if (k =? 4)%Z then 1 else 0).
Theorem C104_reversed_field_refuted : forall fuel mem, enough peakZ fuel -> exists s c s' c', extractR fuel mem peakX peakY peakZ 1 = Ok (s, c) /\ extractR fuel mem peakX peakY (negated peakZ) (- 1) = Ok (s', c') /\
  (forall u v, ~ line s u v) /\ line s' (1, 1) (1, 1).
Proof.
  intros fuel mem F. assert (M : meshed peakX peakY peakZ) by (unfold meshed; cbn; lia). assert (M' : meshed peakX peakY (negated peakZ)) by exact M.
  destruct (C64_tracing_stays_inside_the_arrays R Rplus Rminus Rmult Rdiv 4 Rgtb Reqb fuel mem peakX peakY peakZ 1 M F) as [s [c E]]. destruct (C64_tracing_stays_inside_the_arrays R Rplus Rminus Rmult Rdiv 4 Rgtb Reqb fuel mem peakX peakY (negated peakZ) (-1) M' F) as [s' [c' E']].
  exists s, c, s', c'. split; [exact E|]. split; [exact E'|]. split.
  - intros u v. rewrite (C103_lines_drawn _ _ _ _ _ _ _ _ M F E). intros [e [f [[_ [C _]] _]]]. apply C. unfold above_of, peakZ. cbn [m_at].
    assert (K : forall k, Rgtb (if (k =? 4)%Z then 1 else 0) 1 = false) by (intro k; apply Rgtb_false; destruct (k =? 4)%Z; lra). rewrite !K. reflexivity.
  - rewrite (C103_lines_drawn _ _ _ _ _ _ _ _ M' F E'). exists (4, 3)%Z, (4, 1)%Z.
    assert (K : forall k, above_of R Rgtb (negated peakZ) (-1) k = negb (k =? 4)%Z) by (intro k; unfold above_of, peakZ; cbn [changed_values m_at]; destruct (k =? 4)%Z; [apply Rgtb_false|apply Rgtb_true]; lra).
    assert (D : forall e, fst e = 4%Z -> meets peakX peakY (negated peakZ) (-1) e (1, 1)).
    { intros [p q] H. cbn in H. subst p. exists 0. unfold between, peakX, peakY, peakZ. cbn [changed_values m_at fst snd]. change (4 mod 3)%Z with 1%Z. change (4 / 3)%Z with 1%Z. cbn [Z.eqb Pos.eqb]. split; [lra|]. f_equal; ring. }
    split; [|split; apply D; reflexivity]. split; [intros [X|X]; discriminate|]. unfold crossed. rewrite !K. cbn [fst snd changed_values m_cols m_rows peakZ]. split; [discriminate|]. split; [discriminate|]. exists (0, 0)%Z.
    assert (S1 : side_of_cell 3 3 (0, 0)%Z (4, 3)%Z) by (unfold side_of_cell, is_cell, side, S_Cntr.in_mesh, point_of_cell, row_of, col_of; cbn; lia). assert (S2 : side_of_cell 3 3 (0, 0)%Z (4, 1)%Z) by (unfold side_of_cell, is_cell, side, S_Cntr.in_mesh, point_of_cell, row_of, col_of; cbn; lia).
    split; [exact S1|]. split; [exact S2|]. intros [X _]. rewrite !K in X. discriminate.
Qed.
Print Assumptions C104_reversed_field_refuted.

(** *** C106 *)
(** The same contours in other units of the data: c times the values plus d, with c > 0 *)
Theorem C106_units_of_the_data : forall fuel mem x y z level c d, 0 < c -> meshed x y z -> enough z fuel ->
  extractR fuel mem x y (changed_values (fun a => c * a + d) z) (c * level + d) = extractR fuel mem x y z level.
Proof.
  intros fuel mem x y z level c d Hc M F. unfold extractR. destruct (master R Rplus Rminus Rmult Rdiv 4 Rgtb Reqb fuel mem x y z level M F) as [T [curves [cd [_ [_ [Ht [_ [Fc _]]]]]]]]. destruct M as [A [B [C [D _]]]]. set (z' := changed_values (fun a => c * a + d) z).
  assert (G : forall a b, Rgtb (c * a + d) (c * b + d) = Rgtb a b) by (intros a b; unfold Rgtb; destruct (Rlt_dec (c * b + d) (c * a + d)) as [L|L], (Rlt_dec b a) as [L'|L']; try reflexivity; exfalso; [apply L', (Rmult_lt_reg_l c); lra|apply L; apply (Rmult_lt_compat_l c) in L'; lra]).
  assert (Ea : above_of R Rgtb z' (c * level + d) = above_of R Rgtb z level) by (apply functional_extensionality; intro k; unfold above_of, z'; cbn [changed_values m_at]; apply G).
  assert (Ec : centre_of R Rplus Rdiv 4 Rgtb z' (c * level + d) = centre_of R Rplus Rdiv 4 Rgtb z level).
  { repeat (apply functional_extensionality; intro). unfold centre_of, z'. cbn [changed_values m_at]. match goal with |- _ = Rgtb ?b level => rewrite <- (G b level) end. match goal with |- Rgtb ?a _ = Rgtb ?b _ => replace a with b by field end. reflexivity. }
  assert (Ht' := Ht). rewrite <- Ea, <- Ec in Ht'. change (m_cols R z) with (m_cols R z') in Ht'. change (m_rows R z) with (m_rows R z') in Ht'.
  assert (L2 : Forall (fun c => (2 <= length c)%nat) curves) by (refine (Forall_impl _ _ Fc); intros cv Hcv; apply (cv_length _ _ _ _ Hcv)).
  rewrite (extract_ok R Rplus Rminus Rmult Rdiv 4 Rgtb Reqb fuel mem x y z level A B C D curves Ht L2), (extract_ok R Rplus Rminus Rmult Rdiv 4 Rgtb Reqb fuel mem x y z' (c * level + d) A B C D curves Ht' L2).
  assert (Ev : forall cv, In cv curves -> map (vertex R Rplus Rminus Rmult Rdiv x y z' (c * level + d)) cv = map (vertex R Rplus Rminus Rmult Rdiv x y z level) cv).
  { intros cv Hcv. apply map_ext_in. intros [p q] He. rewrite Forall_forall in Fc. pose proof (crossed_ne z level _ (proj2 (cv_sides _ _ _ _ (Fc cv Hcv) _ He))) as N. cbn [fst snd] in N. unfold vertex, z'. cbn [changed_values m_at].
    assert (Q : (c * level + d - (c * m_at R z p + d)) / (c * m_at R z q + d - (c * m_at R z p + d)) = (level - m_at R z p) / (m_at R z q - m_at R z p)) by (field; split; [lra|]; replace (c * m_at R z q + d - (c * m_at R z p + d)) with (c * (m_at R z q - m_at R z p)) by ring; apply Rmult_integral_contrapositive; lra). rewrite Q. reflexivity. }
  f_equal. f_equal; apply map_ext_in; intros cv Hcv; rewrite (Ev cv Hcv); reflexivity.
Qed.
Print Assumptions C106_units_of_the_data.
(** ... and in other units of the coordinates: the vertices are converted, nothing else changes *)
Theorem C106_units_of_the_coordinates : forall fuel mem x y z level a b a' b' s c, meshed x y z -> enough z fuel -> extractR fuel mem x y z level = Ok (s, c) ->
  let f := fun t => a * t + b in let g := fun t => a' * t + b' in
  extractR fuel mem (changed_values f x) (changed_values g y) z level = Ok (map (changed_item f g) s, c).
Proof.
  intros fuel mem x y z level a b a' b' s cc M F E f g. unfold extractR in *. destruct (master R Rplus Rminus Rmult Rdiv 4 Rgtb Reqb fuel mem x y z level M F) as [T [curves [cd [_ [_ [Ht [_ [Fc _]]]]]]]]. destruct M as [A [B [C [D _]]]].
  assert (L2 : Forall (fun c => (2 <= length c)%nat) curves) by (refine (Forall_impl _ _ Fc); intros cv Hcv; apply (cv_length _ _ _ _ Hcv)).
  rewrite (extract_ok R Rplus Rminus Rmult Rdiv 4 Rgtb Reqb fuel mem x y z level A B C D curves Ht L2) in E. injection E as <- <-.
  rewrite (extract_ok R Rplus Rminus Rmult Rdiv 4 Rgtb Reqb fuel mem (changed_values f x) (changed_values g y) z level A B C D curves Ht L2). f_equal. rewrite map_map.
  assert (Ev : forall e, vertex R Rplus Rminus Rmult Rdiv (changed_values f x) (changed_values g y) z level e = (f (fst (vertex R Rplus Rminus Rmult Rdiv x y z level e)), g (snd (vertex R Rplus Rminus Rmult Rdiv x y z level e)))) by (intros [p q]; unfold vertex, f, g; cbn [changed_values m_at fst snd]; f_equal; ring).
  f_equal; apply map_ext; intro cv.
  - cbn [changed_item]. rewrite map_map. f_equal. apply map_ext. exact Ev.
  - unfold codes_of. destruct cv; [reflexivity|]. cbn [map]. rewrite !map_map. reflexivity.
Qed.
Print Assumptions C106_units_of_the_coordinates.

(** *** cases *)
(** The peak at level 1/2: no value and no mean equals the level; the four sides at the centre are crossed, so there are lines. *)
Example C104_case : meshed peakX peakY peakZ /\ enough peakZ 60 /\ (forall k, S_Cntr.in_mesh 3 3 k -> m_at R peakZ k <> 1 / 2) /\ (forall q, is_cell 3 3 q -> ~ ambiguous 3 (above_of R Rgtb peakZ (1 / 2)) q) /\ in_contour peakX peakY peakZ (1 / 2) (1 / 2, 1) (1, 1 / 2).
Proof.
  split; [unfold meshed; cbn; lia|]. split; [unfold enough; cbn; lia|]. split; [intros k _; unfold peakZ; cbn [m_at]; destruct (k =? 4)%Z; lra|].
  assert (K : forall k, above_of R Rgtb peakZ (1 / 2) k = (k =? 4)%Z) by (intro k; unfold above_of, peakZ; cbn [m_at]; destruct (k =? 4)%Z; [apply Rgtb_true|apply Rgtb_false]; lra). split.
  - intros [i j] [Hi Hj] [X1 [X2 X3]]. cbn [fst snd] in Hi, Hj. rewrite !K in *. unfold corner in *. cbn [fst snd] in *. assert (i = 0 \/ i = 1)%Z as [->| ->] by lia; assert (j = 0 \/ j = 1)%Z as [->| ->] by lia; cbn in X1, X2; discriminate.
  - exists (4, 3)%Z, (4, 1)%Z. split; [|split].
    + split; [intros [X|X]; discriminate|]. unfold crossed. rewrite !K. cbn [fst snd m_cols m_rows peakZ]. split; [discriminate|]. split; [discriminate|]. exists (0, 0)%Z.
      split; [unfold side_of_cell, is_cell, side, S_Cntr.in_mesh, point_of_cell, row_of, col_of; cbn; lia|]. split; [unfold side_of_cell, is_cell, side, S_Cntr.in_mesh, point_of_cell, row_of, col_of; cbn; lia|]. intros [X _]. rewrite !K in X. discriminate.
    + exists (1 / 2). unfold between, peakX, peakY, peakZ. cbn [m_at fst snd]. change (4 mod 3)%Z with 1%Z. change (4 / 3)%Z with 1%Z. change (3 mod 3)%Z with 0%Z. change (3 / 3)%Z with 1%Z. cbn [Z.eqb Pos.eqb]. split; [lra|]. f_equal; lra.
    + exists (1 / 2). unfold between, peakX, peakY, peakZ. cbn [m_at fst snd]. change (4 mod 3)%Z with 1%Z. change (4 / 3)%Z with 1%Z. change (1 mod 3)%Z with 1%Z. change (1 / 3)%Z with 0%Z. cbn [Z.eqb Pos.eqb]. split; [lra|]. f_equal; lra.
Qed.

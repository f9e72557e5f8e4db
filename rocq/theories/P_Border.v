(** C115: eddies inside the domain are closed; C116: which levels have contours; C117: the extrema of a run *)
From Coq Require Import Lia Permutation Reals.
From Verif Require Import M_Base M_Tables M_Area M_Eddy M_Detect M_Cntr M_Extract M_Window M_Pipeline S_Cntr S_Tracking S_Levels S_Detect S_Window S_Pipeline S_Process S_Border
  L_Window2 L_Detect4 L_Pipeline L_Witness P_Cntr P_Detect P_Levels P_Tracking P_Window P_Pipeline P_Process P_Levels2.
Open Scope Z_scope.

Lemma outer_border cols rows e : side cols rows e -> outer cols rows e -> border_point cols rows (fst e) /\ border_point cols rows (snd e).
Proof. destruct e as [p q]. intros (A & B & _) O. cbn [fst snd]. split; (split; [assumption|]); unfold outer in O; tauto. Qed.
Lemma inner_closed cols rows above c : is_curve cols rows above c -> (forall k k', border_point cols rows k -> border_point cols rows k' -> above k = above k') -> closed_curve c.
Proof.
  intros [_ S _ [C|(e & f & B & _ & O & _)]] H; [exact C|exfalso]. destruct B as (l & ->). destruct (S e (or_introl eq_refl)) as [Se Ce]. destruct (outer_border _ _ _ Se O) as [X Y]. apply Ce, H; assumption.
Qed.
Lemma closed_map {A} (f : Z * Z -> A) c : (2 <= length c)%nat -> closed_curve c -> closed_outline (map f c).
Proof. intros L (e & (l1 & E1) & (l2 & E2)). exists (f e), (map f l1), (map f l2). split; [rewrite E1; reflexivity|]. split; [rewrite E2, map_app; reflexivity|rewrite map_length; exact L]. Qed.

(** *** C115 *)
(** Any arithmetic: when the points of the border are all above the level or all not above it, every contour ends with exactly the vertex it begins with. *)
Theorem C115_inner_contours_are_closed : forall num add sub mul div four gtb eqb fuel mem x y z level segments codes,
  meshed x y z -> enough z fuel -> extract_contours num add sub mul div four gtb eqb fuel mem x y z level = Ok (segments, codes) ->
  (forall k k', border_point (m_cols num z) (m_rows num z) k -> border_point (m_cols num z) (m_rows num z) k' -> gtb (m_at num z k) level = gtb (m_at num z k') level) ->
  forall vs, In (Verts num vs) segments -> closed_outline vs.
Proof.
  intros num add sub mul div four gtb eqb fuel mem x y z level segments codes M F E B vs Hv.
  destruct (C65_contours_close_or_join_the_boundary num add sub mul div four gtb eqb fuel mem x y z level M F) as (curves & cd & E' & Fc). rewrite E' in E. injection E as <- _.
  apply in_map_iff in Hv as (c & Ec & Hc). injection Ec as <-. rewrite Forall_forall in Fc. apply closed_map; [apply (Fc c Hc)|]. exact (inner_closed _ _ _ _ (Fc c Hc) B).
Qed.
Print Assumptions C115_inner_contours_are_closed.

(** A field whose border lies on one side of the level *)
Lemma border_above f level : shaped (length f) (width_of f) f -> (1 <= length f)%nat -> (1 <= width_of f)%nat -> border_on_one_side f level ->
  forall k k', border_point (width f) (height f) k -> border_point (width f) (height f) k' -> value_above f level k = value_above f level k'.
Proof.
  intros [_ Rf] H1 W1 B.
  assert (V : forall k, border_point (width f) (height f) k -> exists v, border_value f v /\ nth (Z.to_nat k) (List.concat f) NaN = v).
  { intros k ((K0 & K1) & K2). unfold width, height in *. assert (Fr : Forall (fun r => length r = width_of f) f) by (apply Forall_forall; exact Rf).
    assert (L : (Z.to_nat k < length (List.concat f))%nat) by (rewrite (concat_rect f (width_of f) Rf); nia).
    destruct (nth_error (List.concat f) (Z.to_nat k)) as [v|] eqn:Ev; [|apply nth_error_None in Ev; lia]. exists v. split; [|exact (nth_error_nth _ _ _ Ev)].
    rewrite (nth_error_concat (width_of f) f (Z.to_nat k) Fr) in Ev by lia. unfold at_ in Ev. destruct (nth_error f (Z.to_nat k / width_of f)) as [row|] eqn:Er; [|discriminate Ev].
    exists (Z.to_nat k / width_of f)%nat, (Z.to_nat k mod width_of f)%nat, row. split; [exact Er|]. split; [exact Ev|]. rewrite (Rf row (nth_error_In _ _ Er)).
    unfold row_of, col_of in K2. assert (D : (Z.of_nat (Z.to_nat k / width_of f) = k / Z.of_nat (width_of f))%Z) by (rewrite Nat2Z.inj_div, Z2Nat.id by exact K0; reflexivity).
    assert (D' : (Z.of_nat (Z.to_nat k mod width_of f) = k mod Z.of_nat (width_of f))%Z) by (rewrite Nat2Z.inj_mod, Z2Nat.id by exact K0; reflexivity). lia. }
  intros k k' K K'. destruct (V k K) as (v & Bv & Ev), (V k' K') as (v' & Bv' & Ev'). unfold value_above. rewrite Ev, Ev'. destruct B as [B|B].
  - rewrite (proj1 (Bool.not_true_iff_false _) (fun H => B v Bv (proj1 (ngt_greater _ _) H))), (proj1 (Bool.not_true_iff_false _) (fun H => B v' Bv' (proj1 (ngt_greater _ _) H))). reflexivity.
  - rewrite (proj2 (ngt_greater _ _) (B v Bv)), (proj2 (ngt_greater _ _) (B v' Bv')). reflexivity.
Qed.
Lemma outline_recorded s level c e : record_of s level c e -> outline e = c.
Proof.
  intros (el & a & b & th & err & sgn & v & y & x & g & gerr & _ & _ & _ & _ & ->). unfold outline. rewrite map_map. cbn [point_columns others app nth]. rewrite <- map_id. apply map_ext. intros [p q]. reflexivity.
Qed.
Lemma one_shape_self o f : one_shape o f -> shaped (length f) (width_of f) f /\ (1 <= length f)%nat /\ (1 <= width_of f)%nat.
Proof.
  intros (ny & nx & Hy & Hx & (L & R) & _). assert (W : width_of f = nx) by (apply (width_same f ny); [lia|exact L|exact R]). split; [split; [reflexivity|rewrite W; exact R]|]. lia.
Qed.
Lemma field_unique o t f f' : field_at o t f -> field_at o t f' -> f = f'.
Proof.
  intros (g & S & F) (g' & S' & F'). assert (g = g').
  { unfold selected in *. destruct (t_data o); [|congruence]. destruct S as [[A B]|[A [B C]]], S' as [[A' B']|[A' [B' C']]]; try lia; congruence. }
  subst g'. rewrite F in F'. injection F' as ->. reflexivity.
Qed.
(** A whole run: if at every step the border of the field lies on one side of each level, every eddy of the table is a closed contour. *)
Theorem C115_eddies_of_a_run_are_closed : forall o hav t0 tf levels nt st files R st' r,
  query_ok hav (t_query o) -> five_fitted o -> process st ->
  (forall t level, In t (run_steps o t0 tf) -> In level levels -> ~ zero level -> exists f, field_at o t f /\ one_shape o f /\ border_on_one_side f level) ->
  tracking o t0 tf (Some levels) nt true st = ((files, Ok R), st') -> In r (rows R) ->
  exists e, In r (rows_at (r_time r) (r_id r) e) /\ incl (rows_at (r_time r) (r_id r) e) (rows R) /\ closed_outline (outline e).
Proof.
  intros o hav t0 tf levels nt st files R st' r Hq H5 Hp Hb H Hr. destruct (C79_every_row_is_a_vertex_of_an_accepted_contour _ _ _ _ _ _ _ _ _ _ r Hq H5 Hp H Hr) as (Ht & e & D & A & B).
  exists e. split; [exact A|]. split; [exact B|]. destruct D as (f & level & s & c & Hf & Hl & Hz & (curve & Hc & ->) & _ & _ & Rc).
  destruct (Hb _ _ Ht Hl Hz) as (f' & Hf' & Sh & Bd). rewrite (field_unique _ _ _ _ Hf' Hf) in *. rewrite (outline_recorded _ _ _ _ Rc). destruct (one_shape_self _ _ Sh) as (S1 & S2 & S3).
  apply closed_map; [apply Hc|]. apply (inner_closed _ _ _ _ Hc). apply border_above; assumption.
Qed.
Print Assumptions C115_eddies_of_a_run_are_closed.

(** *** C116 *)
Lemma step_between (f : Z -> bool) n : forall a, f a <> f (a + Z.of_nat n) -> exists i, a <= i < a + Z.of_nat n /\ f i <> f (i + 1).
Proof.
  induction n as [|n IH]; intros a H; [rewrite Z.add_0_r in H; congruence|]. destruct (Bool.bool_dec (f a) (f (a + 1))) as [E|E]; [|exists a; split; [lia|exact E]].
  destruct (IH (a + 1)) as (i & Hi & K); [rewrite <- E; replace (a + 1 + Z.of_nat n) with (a + Z.of_nat (S n)) by lia; exact H|]. exists i. split; [lia|exact K].
Qed.
Lemma change_between (f : Z -> bool) a b : f a <> f b -> exists i, Z.min a b <= i < Z.max a b /\ f i <> f (i + 1).
Proof.
  intro H. destruct (Z.le_ge_cases a b) as [L|L].
  - destruct (step_between f (Z.to_nat (b - a)) a) as (i & Hi & K); [rewrite Z2Nat.id by lia; replace (a + (b - a)) with b by ring; exact H|]. exists i. split; [lia|exact K].
  - destruct (step_between f (Z.to_nat (a - b)) b) as (i & Hi & K); [rewrite Z2Nat.id by lia; replace (b + (a - b)) with a by ring; congruence|]. exists i. split; [lia|exact K].
Qed.
Lemma coord cols rows i j : 0 <= i < cols -> 0 <= j < rows -> S_Cntr.in_mesh cols rows (i + j * cols) /\ col_of cols (i + j * cols) = i /\ row_of cols (i + j * cols) = j.
Proof.
  intros Hi Hj. unfold S_Cntr.in_mesh, col_of, row_of. split; [nia|]. rewrite Z.mod_add, Z.div_add, Z.mod_small, Z.div_small by lia. lia.
Qed.
Lemma coord_of cols rows k : 0 < cols -> S_Cntr.in_mesh cols rows k -> exists i j, k = i + j * cols /\ 0 <= i < cols /\ 0 <= j < rows.
Proof.
  intros Hc [A B]. exists (k mod cols), (k / cols). pose proof (Z.div_mod k cols). pose proof (Z.mod_pos_bound k cols). assert (0 <= k / cols) by (apply Z.div_pos; lia). assert (k / cols < rows) by (apply Z.div_lt_upper_bound; nia). lia.
Qed.
(** Two points on different sides of the level: the level passes between two neighbours. *)
Lemma some_crossed cols rows (above : Z -> bool) k k' : 0 < cols -> S_Cntr.in_mesh cols rows k -> S_Cntr.in_mesh cols rows k' -> above k <> above k' -> exists e, side cols rows e /\ crossed above e.
Proof.
  intros Hc K K' D. destruct (coord_of _ _ _ Hc K) as (i & j & -> & Hi & Hj), (coord_of _ _ _ Hc K') as (i' & j' & -> & Hi' & Hj').
  destruct (Bool.bool_dec (above (i + j * cols)) (above (i' + j * cols))) as [E|E].
  - destruct (change_between (fun b => above (i' + b * cols)) j j') as (b & Hb & Kb); [congruence|]. exists (i' + b * cols, i' + (b + 1) * cols). split; [|exact Kb].
    destruct (coord cols rows i' b) as (A1 & A2 & A3); [lia|lia|]. destruct (coord cols rows i' (b + 1)) as (B1 & B2 & B3); [lia|lia|]. split; [exact A1|]. split; [exact B1|]. right. rewrite A2, B2, A3, B3. lia.
  - destruct (change_between (fun a => above (a + j * cols)) i i') as (a & Ha & Ka); [exact E|]. exists (a + j * cols, a + 1 + j * cols). split; [|exact Ka].
    destruct (coord cols rows a j) as (A1 & A2 & A3); [lia|lia|]. destruct (coord cols rows (a + 1) j) as (B1 & B2 & B3); [lia|lia|]. split; [exact A1|]. split; [exact B1|]. left. rewrite A2, B2, A3, B3. lia.
Qed.
(** A level has a contour exactly if some point of the grid is above it and some is not; any arithmetic, so also with missing values. *)
Theorem C116_levels_with_contours : forall num add sub mul div four gtb eqb fuel mem x y z level segments codes,
  meshed x y z -> 2 <= m_rows num z -> 2 <= m_cols num z -> enough z fuel -> extract_contours num add sub mul div four gtb eqb fuel mem x y z level = Ok (segments, codes) ->
  segments <> [] <-> exists k k', S_Cntr.in_mesh (m_cols num z) (m_rows num z) k /\ S_Cntr.in_mesh (m_cols num z) (m_rows num z) k' /\ gtb (m_at num z k) level = true /\ gtb (m_at num z k') level = false.
Proof.
  intros num add sub mul div four gtb eqb fuel mem x y z level segments codes M R2 C2 F E.
  destruct (C76_every_crossed_side_is_visited_once num add sub mul div four gtb eqb fuel mem x y z level M R2 C2 F) as (curves & cd & E' & V & W). rewrite E' in E. injection E as <- _.
  destruct (C65_contours_close_or_join_the_boundary num add sub mul div four gtb eqb fuel mem x y z level M F) as (curves' & cd' & E2 & Fc). rewrite E' in E2. injection E2 as E2 _.
  split.
  - intro N. destruct curves as [|c curves]; [contradiction|]. destruct curves' as [|c' curves']; [discriminate E2|]. apply Forall_inv in Fc. destruct c' as [|[p q] c']; [destruct Fc as [L _ _ _]; cbn in L; lia|].
    destruct (cv_sides _ _ _ _ Fc (p, q) (or_introl eq_refl)) as [(Mp & Mq & _) Cr]. unfold crossed, above_of in Cr. cbn [fst snd] in Cr.
    destruct (gtb (m_at num z p) level) eqn:P; [exists p, q|exists q, p]; destruct (gtb (m_at num z q) level) eqn:Q; try congruence; auto.
  - intros (k & k' & K & K' & A & B) N. assert (C0 : 0 < m_cols num z) by lia. destruct (some_crossed _ _ (above_of num gtb z level) k k' C0 K K') as (e & Se & Ce); [unfold above_of; congruence|].
    specialize (V e Se Ce). destruct curves as [|c curves]; [discriminate V|discriminate N].
Qed.
Print Assumptions C116_levels_with_contours.

(** *** C117 *)
(** Every row of the table of a run: the position of the extremum is a grid point, the extremum is the value of the field of that step there, it is not zero and has the reported sign. *)
Theorem C117_extrema_of_a_run : forall o hav t0 tf levels nt st files R st' r,
  query_ok hav (t_query o) -> five_fitted o -> process st ->
  (forall t, In t (run_steps o t0 tf) -> exists f, field_at o t f /\ one_shape o f) ->
  tracking o t0 tf (Some levels) nt true st = ((files, Ok R), st') -> In r (rows R) ->
  exists f i j lon lat v m, field_at o (r_time r) f /\ at_ (t_X o) i j = Some lon /\ at_ (t_Y o) i j = Some lat /\ at_ f i j = Some (Num v) /\
    maxima_x (r_cols r) = Num lon /\ maxima_y (r_cols r) = Num lat /\ maxima_column (r_cols r) = Num m /\ (m == v)%Q /\
    ((0 < v)%Q /\ eddy_sign_column (r_cols r) = Num 1 \/ (v < 0)%Q /\ eddy_sign_column (r_cols r) = Num (-1)).
Proof.
  intros o hav t0 tf levels nt st files R st' r Hq H5 Hp Hs H Hr. destruct (C79_every_row_is_a_vertex_of_an_accepted_contour _ _ _ _ _ _ _ _ _ _ r Hq H5 Hp H Hr) as (Ht & e & D & A & _).
  destruct D as (f & level & s & c & Hf & _ & _ & _ & Cd & Ac & (el & a & b & th & err & sgn & v & y & x & g & gerr & _ & _ & Hd & _ & Ee)).
  destruct (Hs _ Ht) as (f' & Hf' & (ny & nx & _ & _ & [Lf Rf] & [LX RX] & [LY RY])). rewrite (field_unique _ _ _ _ Hf' Hf) in *.
  assert (Rr : forall A (h : grid A), length h = ny -> (forall row, In row h -> length row = nx) -> rectangular ny nx h) by (intros B h L R'; split; [exact L|apply Forall_forall; exact R']).
  rewrite (cd_data _ _ _ _ Cd) in Hd. destruct (C69_extremum_at_a_grid_point _ _ _ _ ny nx _ _ _ _ _ (Rr _ _ LX RX) (Rr _ _ LY RY) (Rr _ _ Lf Rf) Hd) as (cells & i & j & q & sq & vq & xq & yq & _ & -> & -> & -> & -> & [G1 G2] & Hq' & T & _).
  assert (Nz : ~ (vq == 0)%Q).
  { destruct Ac as (_ & Ck). intro Z0. assert (X : island_check (s_data s) c = Ok true) by (apply (Ck ("eddy_is_island"%string, island_check (s_data s) c)); unfold checks; apply in_or_app; left; cbn; tauto).
    unfold island_check in X. rewrite (cd_data _ _ _ _ Cd), Hd in X. cbn in X. assert (E0 : Qeq_bool vq 0 = true) by (apply Qeq_bool_iff; exact Z0). rewrite E0 in X. discriminate X. }
  exists f, i, j, xq, yq, q, vq. split; [exact Hf|]. split; [exact G1|]. split; [exact G2|]. split; [exact Hq'|].
  unfold rows_at in A. apply in_map_iff in A as (r0 & Er & A). assert (C : exists p, r_cols r = point_columns level (enclosed_area (s_flops s) c) (disc_radius (s_flops s) c) a b th err (s_eccentricity s a b) (fst (centre c)) (snd (centre c)) (Num sq) (Num vq) (Num yq) (Num xq) g gerr p).
  { subst e. rewrite <- Er. cbn [r_cols at_time set_time]. unfold contour_rows in A. apply in_map_iff in A as ((k & cl) & <- & A). apply in_combine_r in A. apply in_map_iff in A as (p & <- & _). exists p. reflexivity. }
  destruct C as (p & ->). cbn. split; [reflexivity|]. split; [reflexivity|]. split; [reflexivity|].
  destruct T as [(_ & T)|[(-> & T & U)|(-> & T & U)]]; [contradiction| |]; (split; [exact T|]); [left|right]; (split; [|reflexivity]); rewrite <- T; exact U.
Qed.
Print Assumptions C117_extrema_of_a_run.

(** A spot of height 1 inside a field of zeros and the level 1/2: the border is below the level, some points are above it. *)
Lemma spots_border cs : forallb (fun v => negb (ngt v (Num (1 # 2)))) (hd [] (spots cs) ++ last (spots cs) [] ++ map (hd NaN) (spots cs) ++ map (fun r => last r NaN) (spots cs))%list = true ->
  border_on_one_side (spots cs) (Num (1 # 2)).
Proof.
  intro H. left. intros v (i & j & row & Hi & Hj & B). rewrite forallb_forall in H. assert (I : In v (hd [] (spots cs) ++ last (spots cs) [] ++ map (hd NaN) (spots cs) ++ map (fun r => last r NaN) (spots cs))%list).
  { rewrite !in_app_iff. destruct B as [->|[B|[->|B]]].
    - left. destruct (spots cs) as [|r l]; [discriminate Hi|]. injection Hi as ->. exact (nth_error_In _ _ Hj).
    - right. left. assert (El : last (spots cs) [] = row). { rewrite <- (nth_error_nth _ _ [] Hi). replace i with (length (spots cs) - 1)%nat by lia. destruct (exists_last (l := spots cs)) as (l & a & E); [intro E; rewrite E in B; discriminate B|]. rewrite E, last_last, app_length. cbn [length]. replace (length l + 1 - 1)%nat with (length l) by lia. rewrite app_nth2, Nat.sub_diag by lia. reflexivity. }
      rewrite El. exact (nth_error_In _ _ Hj).
    - right. right. left. apply in_map_iff. exists row. split; [|exact (nth_error_In _ _ Hi)]. destruct row; [discriminate Hj|]. injection Hj as ->. reflexivity.
    - right. right. right. apply in_map_iff. exists row. split; [|exact (nth_error_In _ _ Hi)]. destruct (exists_last (l := row)) as (l & a & E); [intro E; rewrite E in B; discriminate B|]. rewrite E in *. rewrite app_length in B. cbn [length] in B. rewrite last_last. rewrite nth_error_app2 in Hj by lia. replace (j - length l)%nat with 0%nat in Hj by lia. injection Hj as ->. reflexivity. }
  intros G. specialize (H v I). apply Bool.negb_true_iff in H. apply ngt_greater in G. congruence.
Qed.
Lemma spots_shape d cs : one_shape (ex_tracker d) (spots cs).
Proof. destruct (spots_grid d cs) as (A & B & (C1 & C2) & (D1 & D2) & E1 & E2). exists (length (spots cs)), (width_of (spots cs)). repeat split; auto. Qed.
Example C115_case : let o := ex_tracker [spots [(3, 3)]; spots [(3, 4)]] in query_ok demo_hav (t_query o) /\ five_fitted o /\
  (forall t level, In t (run_steps o 0 (Some 2)) -> In level [Num (1 # 2)] -> ~ zero level -> exists f, field_at o t f /\ one_shape o f /\ border_on_one_side f level) /\
  brief (fst (tracking o 0 (Some 2) (Some [Num (1 # 2)]) 5 true initial_state)) = Ok (eddy_labels 0 0 ++ eddy_labels 0 1)%list.
Proof.
  cbv zeta. split; [exact demo_ok|]. split; [apply ex_five|]. split; [|vm_compute; reflexivity].
  intros t level Ht Hl _. destruct Hl as [<-|[]]. assert (T : t = 0 \/ t = 1) by (destruct Ht as [<-|[<-|[]]]; auto).
  destruct T as [-> | ->]; [exists (spots [(3, 3)])|exists (spots [(3, 4)])]; (split; [eexists; split; [left; split; [lia|reflexivity]|reflexivity]|]); (split; [apply spots_shape|]); apply spots_border; vm_compute; reflexivity.
Qed.
(** A summit (C63_summit) meets the hypotheses of the theorems on the tracer: the border is below the level 1, one point is above it. *)
Example C116_case : meshed exX exY exZ /\ 2 <= m_rows Q exZ /\ 2 <= m_cols Q exZ /\ enough exZ 60 /\
  (forall k k', border_point (m_cols Q exZ) (m_rows Q exZ) k -> border_point (m_cols Q exZ) (m_rows Q exZ) k' -> negb (Qle_bool (m_at Q exZ k) 1) = negb (Qle_bool (m_at Q exZ k') 1)) /\
  exists segments codes, extractQ 60 (fun _ => blank) exX exY exZ 1%Q = Ok (segments, codes) /\ segments <> [].
Proof.
  split; [unfold meshed; cbn; lia|]. split; [cbn; lia|]. split; [cbn; lia|]. split; [unfold enough; cbn; lia|]. split.
  - assert (B : forall k, border_point 4 3 k -> negb (Qle_bool (m_at Q exZ k) 1) = false).
    { intros k ((K0 & K1) & K2). assert (K : k = 0 \/ k = 1 \/ k = 2 \/ k = 3 \/ k = 4 \/ k = 5 \/ k = 6 \/ k = 7 \/ k = 8 \/ k = 9 \/ k = 10 \/ k = 11) by lia.
      destruct K as [->|[->|[->|[->|[->|[->|[->|[->|[->|[->|[->| ->]]]]]]]]]]]; try reflexivity; exfalso; vm_compute in K2; destruct K2 as [K2|[K2|[K2|K2]]]; discriminate K2. }
    intros k k' K K'. change (m_cols Q exZ) with 4 in *. change (m_rows Q exZ) with 3 in *. rewrite (B k K), (B k' K'). reflexivity.
  - eexists _, _. split; [exact C63_summit|discriminate].
Qed.

(** *** C97 *)
(** An eddy of radius 0 (see C98, C113) is not within its radius of itself: a field that does not change gives a new track at every step. *)
Theorem C97_steady_field_refuted : exists o hav g R0 R, query_ok hav (t_query o) /\ five_fitted o /\ (forall c, (hav c c == 0)%Q) /\ (forall t, 0 <= t < 2 -> selected (t_data o) t g) /\
  alone o [Num (1 # 2)] 0 R0 /\ run_returns o [Num (1 # 2)] 5 true initial_state 0 2 [] R /\
  (forall r, In r (rows R0) -> r_id r = 0) /\ exists r, In r (rows R) /\ r_id r = 1.
Proof.
  exists (dot_tracker [spots [(3, 3)]; spots [(3, 3)]]), demo_hav, (spots [(3, 3)]).
  assert (A : exists R0 R, alone (dot_tracker [spots [(3, 3)]; spots [(3, 3)]]) [Num (1 # 2)] 0 R0 /\ run_returns (dot_tracker [spots [(3, 3)]; spots [(3, 3)]]) [Num (1 # 2)] 5 true initial_state 0 2 [] R /\
    forallb (fun r => r_id r =? 0) (rows R0) = true /\ existsb (fun r => r_id r =? 1) (rows R) = true).
  { eexists _, _. split; [apply returns_of; [eexists|]; vm_compute; reflexivity|]. split; [apply returns_of; [eexists|]; vm_compute; reflexivity|]. split; vm_compute; reflexivity. }
  destruct A as (R0 & R & A & B & C & D). exists R0, R. split; [exact demo_ok|]. split; [intros f level c g s H; exact (ex_five [] f level c g s H)|]. split; [apply demo_self|].
  split; [intros t Ht; assert (T : t = 0 \/ t = 1) by lia; destruct T as [-> | ->]; (left; split; [lia|reflexivity])|]. split; [exact A|]. split; [exact B|].
  rewrite forallb_forall in C. split; [intros r Hr; apply Z.eqb_eq, C, Hr|]. apply existsb_exists in D as (r & Hr & Er). exists r. split; [exact Hr|apply Z.eqb_eq, Er].
Qed.
Print Assumptions C97_steady_field_refuted.

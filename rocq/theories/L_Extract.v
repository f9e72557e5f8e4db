(** The lists built from the traced curves, and meshes without zones *)
From Coq Require Import Lia.
From Verif Require Import M_Base M_Cntr M_Extract S_Cntr L_Cntr1 L_Cntr2 L_Cntr4 L_Cntr7 L_Cntr9 L_Cntr10 L_Cntr11.

(** *** Meshes with one row or one column *)
Section Thin.
Variables imax jmax : Z.
Variable above : Z -> bool.
Variable centre : Z -> Z -> Z -> Z -> bool.
Hypothesis I1 : 1 <= imax.
Hypothesis J1 : 1 <= jmax.
Hypothesis Thin : imax = 1 \/ jmax = 1.
Lemma thin_zone k : zoneb imax jmax k = false.
Proof.
  unfold zoneb. destruct Thin as [E|E].
  - rewrite E, Z.mod_1_r. reflexivity.
  - rewrite E. destruct (Z.leb_spec 1 (k / imax)), (Z.ltb_spec (k / imax) 1); rewrite ?andb_false_r; auto; lia.
Qed.
Lemma thin_tally n : tally imax jmax above n = 0.
Proof. induction n as [|n IH]; [reflexivity|]. cbn [tally]. rewrite IH. unfold marks, mi0, mi1, mj0, mj1. rewrite !thin_zone, ?andb_false_r. reflexivity. Qed.
Lemma thin_trace fuel mem : (0 < fuel)%nat -> cntr_trace imax jmax above centre fuel mem = Ok [].
Proof.
  intro Hf. unfold cntr_trace. destruct (data_init_ok imax jmax above I1 J1 mem) as [d [R [-> [Hd _]]]]. rewrite thin_tally in *. assert (B : 0 <= 0 < nreg imax jmax) by (unfold nreg; nia). assert (B0 : 0 <= 0 < ijmax imax jmax) by (unfold ijmax; nia).
  assert (Dn : c_done (d 0) = true) by (rewrite Hd by exact B0; reflexivity).
  assert (CT : forall p2 room inner, curve_tracer imax jmax centre inner p2 room (mkT d (fun _ => None) 0 0 0 0) = Ok (mkT d (fun _ => None) 0 0 0 0, 0, [])).
  { intros p2 room inner. unfold curve_tracer. cbn [t_data t_edge0 t_left0]. rewrite get_ok by exact B. cbn [bind]. assert (TS : two_starts imax 0 (d 0) = false) by (unfold two_starts; replace (0 =? imax) with false by (symmetry; apply Z.eqb_neq; lia); reflexivity). rewrite TS.
    unfold next_place. cbn [t_edge0]. rewrite Z.eqb_refl, orb_true_r. cbn [t_data]. rewrite get_ok by exact B. cbn [bind]. rewrite Dn. reflexivity. }
  destruct fuel as [|f]; [lia|]. cbn [bind first_pass]. rewrite CT. cbn [bind Z.eqb second_pass]. rewrite CT. reflexivity.
Qed.
End Thin.

(** *** Any mesh with points *)
Section Total.
Variables imax jmax : Z.
Variable above : Z -> bool.
Variable centre : Z -> Z -> Z -> Z -> bool.
Hypothesis I1 : 1 <= imax.
Hypothesis J1 : 1 <= jmax.
Lemma thin_side_cell q e : imax = 1 \/ jmax = 1 -> ~ side_of_cell imax jmax q e.
Proof. intros H [[A B] _]. lia. Qed.
Lemma trace_total fuel mem : 4 * (imax * jmax) + 2 < Z.of_nat fuel -> exists T curves, cntr_trace imax jmax above centre fuel mem = Ok curves /\ (forall p, exists d, T p = mean_of imax centre d (flat imax p)) /\
  Forall (is_curve imax jmax above) curves /\
  (2 <= imax -> 2 <= jmax -> forall e, side imax jmax e -> crossed above e -> total_visits e curves = 1%nat) /\
  Forall (cuts_off imax jmax above (fun c => T (fst c + 1, snd c + 1))) curves.
Proof.
  intro Hf. destruct (Z.eq_dec imax 1) as [E1|N1]; [|destruct (Z.eq_dec jmax 1) as [E2|N2]].
  - exists (fun p => mean_of imax centre Le (flat imax p)), []. split; [apply thin_trace; auto; lia|]. split; [intro p; exists Le; reflexivity|]. split; [constructor|]. split; [intros; lia|constructor].
  - exists (fun p => mean_of imax centre Le (flat imax p)), []. split; [apply thin_trace; auto; lia|]. split; [intro p; exists Le; reflexivity|]. split; [constructor|]. split; [intros; lia|constructor].
  - assert (I2 : 2 <= imax) by lia. assert (J2 : 2 <= jmax) by lia. destruct (trace_main imax jmax above centre I2 J2 fuel mem Hf) as [T [W [E [HT [FW [ND All]]]]]]. exists T, (map (w_points imax) W). split; [exact E|]. split; [exact HT|]. split; [|split].
    + rewrite Forall_map. apply (Forall_impl _ (fun w Hw => w_curve imax jmax above I2 J2 T w Hw) FW).
    + intros _ _ e Se Ce. destruct (side_site imax jmax I2 J2 e Se) as [x [Ox ->]]. erewrite w_total; [|exact I2|exact FW|exact Ox|left; reflexivity]. pose proof (All x Ox (crossed_cut imax above x Ce)) as Ix. rewrite (NoDup_count_occ' key_eq_dec) in ND. exact (ND _ Ix).
    + rewrite Forall_map. refine (Forall_impl _ _ FW). intros w Hw. apply (w_cuts imax jmax above I2 T _ w); [intros c _; reflexivity|exact Hw].
Qed.
(** No points: the first thing data_init does is to look at z[0] *)
Lemma empty_trace c r fuel mem : c * r <= 0 -> cntr_trace c r above centre fuel mem = Err IndexError.
Proof. intro H. unfold cntr_trace, data_init, get, inside. replace (0 <? ijmax c r) with false by (symmetry; apply Z.ltb_ge; unfold ijmax; lia). reflexivity. Qed.
End Total.

(** *** reorder *)
Section Reorder.
Variable num : Type.
Variable eqn : num -> num -> bool.
Lemma nth_run {A} (d : A) l : map (fun k => nth k l d) (seq 0 (length l)) = l.
Proof. induction l as [|a l IH]; [reflexivity|]. cbn [length seq map nth]. f_equal. rewrite <- seq_shift, map_map. exact IH. Qed.
Lemma seg_started {A} (rest : list A) : forall npts m i i0, rest <> [] -> i + Z.of_nat (length rest) = npts -> m <> 1 -> segments_from npts m i 0 (Some i0) (map (fun _ => kind_zone) rest) = Some [(i0, npts - 1)].
Proof.
  induction rest as [|a rest IH]; intros npts m i i0 Hr E M; [congruence|]. cbn [map segments_from]. destruct rest as [|b rest].
  - cbn [length] in E. replace (i =? npts - 1) with true by (symmetry; apply Z.eqb_eq; lia). rewrite orb_true_r. replace (0 + 1 =? m) with false by (symmetry; apply Z.eqb_neq; lia). cbn. f_equal. f_equal. f_equal. lia.
  - replace (i =? npts - 1) with false by (symmetry; apply Z.eqb_neq; cbn [length] in E; lia). cbn [orb]. replace (kind_slit_up <=? kind_zone) with false by reflexivity. apply IH; [discriminate|cbn [length] in *; lia|exact M].
Qed.
Lemma reorder_id v l : l <> [] -> reorder num eqn (point_at num (v :: l) v) (Z.of_nat (length (v :: l))) (map (fun _ => kind_zone) (v :: l)) = Ok (v :: l, moveto :: map (fun _ => lineto) l).
Proof.
  intro Hl. set (n := Z.of_nat (length (v :: l))). assert (N2 : 2 <= n) by (unfold n; destruct l; [congruence|cbn [length]; lia]). unfold reorder.
  assert (S : segments_from n (n / 2 + 1) 0 0 None (map (fun _ => kind_zone) (v :: l)) = Some [(0, n - 1)]).
  { cbn [map segments_from]. replace (0 <? n - 1) with true by (symmetry; apply Z.ltb_lt; lia). cbn [kind_zone kind_slit_up Z.ltb Z.compare andb]. apply seg_started; [exact Hl|unfold n; cbn [length]; lia|]. pose proof (Z.div_le_mono 2 n 2 ltac:(lia) N2) as D. change (2 / 2) with 1 in D. lia. }
  rewrite S. cbn [length subpaths gather map path flat_map fst snd app].
  assert (R : run num (point_at num (v :: l) v) 0 (n - 1) = v :: l).
  { unfold run. replace (Z.to_nat (n - 1 - 0 + 1)) with (length (v :: l)) by (unfold n; lia). transitivity (map (fun k => nth k (v :: l) v) (seq 0 (length (v :: l)))); [|apply nth_run]. apply map_ext. intro k. unfold point_at. f_equal. lia. }
  rewrite R. cbn [app]. rewrite !app_nil_r. fold n. rewrite Z.ltb_irrefl. reflexivity.
Qed.
Definition codes_of (c : list (num * num)) : list Z := match c with [] => [] | _ :: t => moveto :: map (fun _ => lineto) t end.
Lemma build_ok curves : Forall (fun c => (2 <= length c)%nat) curves -> build num eqn curves = Ok (map (Verts num) curves, map (fun c => Codes num (codes_of c)) curves).
Proof.
  induction 1 as [|c curves Hc F IH]; [reflexivity|]. destruct c as [|v [|w l]]; [cbn in Hc; lia|cbn in Hc; lia|]. cbn [build]. rewrite reorder_id by discriminate. rewrite IH. reflexivity.
Qed.
End Reorder.

(** *** extract_contours *)
Section Api.
Variable num : Type.
Variables add sub mul div : num -> num -> num.
Variable four : num.
Variable gtb : num -> num -> bool.
Variable eqn : num -> num -> bool.
Lemma half_split {A} (a b : list A) : length a = length b -> let n := Z.to_nat (Z.of_nat (length (a ++ b)) / 2) in firstn n (a ++ b) = a /\ skipn n (a ++ b) = b.
Proof.
  intro E. cbv zeta. assert (N : Z.to_nat (Z.of_nat (length (a ++ b)) / 2) = length a). { rewrite app_length, <- E. replace (Z.of_nat (length a + length a)) with (Z.of_nat (length a) * 2) by lia. rewrite Z.div_mul by lia. lia. }
  rewrite N, firstn_app, skipn_app, Nat.sub_diag, firstn_all, skipn_all. cbn. rewrite app_nil_r. auto.
Qed.
Lemma extract_ok fuel mem x y z level : m_rows num x = m_rows num z -> m_cols num x = m_cols num z -> m_rows num y = m_rows num z -> m_cols num y = m_cols num z -> forall curves,
  cntr_trace (m_cols num z) (m_rows num z) (above_of num gtb z level) (centre_of num add div four gtb z level) fuel mem = Ok curves -> Forall (fun c => (2 <= length c)%nat) curves ->
  extract_contours num add sub mul div four gtb eqn fuel mem x y z level = Ok (map (fun c => Verts num (map (vertex num add sub mul div x y z level) c)) curves, map (fun c => Codes num (codes_of num (map (vertex num add sub mul div x y z level) c))) curves).
Proof.
  intros Rx Cx Ry Cy curves Ht Hl. unfold extract_contours, trace, cntr_init. rewrite Rx, Cx, Ry, Cy, !Z.eqb_refl. cbn [andb bind fst snd]. rewrite Ht. cbn [bind]. rewrite build_ok by (rewrite Forall_map; refine (Forall_impl _ _ Hl); intros c Hc; rewrite map_length; exact Hc). cbn [bind fst snd].
  destruct (half_split (map (Verts num) (map (map (vertex num add sub mul div x y z level)) curves)) (map (fun c => Codes num (codes_of num c)) (map (map (vertex num add sub mul div x y z level)) curves))) as [-> ->]; [rewrite !map_length; reflexivity|]. rewrite !map_map. reflexivity.
Qed.
End Api.

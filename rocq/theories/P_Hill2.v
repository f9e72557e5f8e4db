(** C130 for a whole run: fields with one hill (or one basin) have at most one eddy per level *)
From Coq Require Import Lia Permutation Bool.
From Verif Require Import M_Base M_Tables M_Area M_Eddy M_Detect M_Cntr M_Extract M_Window M_Pipeline S_Cntr S_Tracking S_Levels S_Detect S_Window S_Pipeline S_Process S_Border S_Turn S_Hill
  L_Loop L_Nest L_Hill L_Pipeline P_Cntr P_Detect P_Levels P_Tracking P_Window P_Pipeline P_Process P_Border P_Enclose P_Nest P_Hill L_Levels L_Detect4 L_Witness.
Open Scope Z_scope.

(** The border of the field lies on one side of the level, some point on the other, and the points of each side are connected over neighbours in the rows and columns *)
Definition one_hill (f : grid num) (level : num) : Prop := exists hill,
  (exists p, S_Cntr.in_mesh (width f) (height f) p /\ value_above f level p = hill) /\ (forall p, border_point (width f) (height f) p -> value_above f level p = negb hill) /\
  forall p q, S_Cntr.in_mesh (width f) (height f) p -> S_Cntr.in_mesh (width f) (height f) q -> value_above f level p = value_above f level q -> connected (width f) (height f) (value_above f level) beside_only p q.
Lemma one_line o f level cs : one_hill f level -> contour_lines o f level cs -> exists c, cs = [map (position o f level) c] /\ closed_curve c /\ is_curve (width f) (height f) (value_above f level) c.
Proof.
  intros (hill & Ex & Bd & Cn) (curves & Fc & -> & Tv & (t & _ & Cu) & Hl).
  assert (D : 1 <= width f /\ 1 <= height f) by (destruct Ex as (p & Ip & _); unfold S_Cntr.in_mesh, width, height in *; nia). destruct D as [C1 R1].
  destruct (single (width f) (height f) (value_above f level) C1 R1 t curves hill Fc Tv) as (c & -> & Cc & Gc & _); [|exact Ex|exact Bd| |].
  - intros c Hc Cc. rewrite Forall_forall in Fc, Cu, Hl. pose proof (Fc c Hc) as Ic. constructor; [exact Ic|exact (Hl c Hc Cc)|exact Cc|exact (Cu c Hc)|]. intros e He.
    destruct (cv_sides _ _ _ _ Ic e He) as [Se Ce]. rewrite (passes_visits _ (height f) (value_above f level) C1 c Ic Cc e Se). pose proof (visited _ _ _ c Ic Cc e He) as V1. pose proof (total_ge e c curves Hc) as V2. rewrite (Tv e Se Ce) in V2. lia.
  - intros p q Ip Iq A. refine (connected_weaker _ _ _ _ _ p q _ (Cn p q Ip Iq A)). intros k b [].
  - exists c. split; [reflexivity|]. split; [exact Cc|apply Gc].
Qed.
Lemma kept_length fs : (length (kept fs) <= length fs)%nat.
Proof. unfold kept. induction fs as [|[|e|r] fs IH]; cbn [flat_map length app]; lia. Qed.
Lemma found_one o t level N f : field_at o t f -> one_hill f level -> found_at o t level N -> (length N <= 1)%nat.
Proof.
  intros Hf Hh (f' & s & cs & fs & Hf' & _ & Hc & J & ->). rewrite (field_unique _ _ _ _ Hf' Hf) in Hc. destruct (one_line _ _ _ _ Hh Hc) as (c & -> & _). apply Forall2_length in J. cbn in J. pose proof (kept_length fs). lia.
Qed.
Theorem C130_one_eddy_per_level : forall o hav t0 tf levels sel nt st files R st',
  query_ok hav (t_query o) -> five_fitted o -> process st -> selects (fun x => ~ zero x) levels sel ->
  (forall t level, In t (run_steps o t0 tf) -> In level sel -> exists f, field_at o t f /\ one_hill f level) ->
  tracking o t0 tf (Some levels) nt true st = ((files, Ok R), st') ->
  forall t ids, NoDup ids -> (forall i, In i ids -> exists r, In r (rows R) /\ r_time r = t /\ r_id r = i) -> (length ids <= length sel)%nat.
Proof.
  intros o hav t0 tf levels sel nt st files R st' Hq H5 Hp Hs Hh H t ids Nd Hi. destruct (C79_table_of_a_run _ _ _ _ _ _ _ _ _ _ Hq H5 Hp H) as [(ch & P & F) _].
  assert (Inc : forall i, In i ids -> In t (run_steps o t0 tf) /\ In i (map fst (ch t))).
  { intros i Ii. destruct (Hi i Ii) as (r & Hr & Et & Ei). apply (Permutation_in _ P), in_flat_map in Hr as (t' & Ht & Hr). apply in_flat_map in Hr as ([id e] & He & Hr). cbn [fst snd] in Hr.
    unfold rows_at in Hr. apply in_map_iff in Hr as (r0 & <- & Hr0). apply contour_rows_In in Hr0 as (A & _). cbn in Et, Ei. subst t'. split; [exact Ht|]. apply in_map_iff. exists (id, e). split; [cbn; congruence|exact He]. }
  destruct ids as [|i0 ids]; [cbn; lia|]. destruct (Inc i0 (or_introl eq_refl)) as [Ht _].
  assert (L1 : (length (i0 :: ids) <= length (map fst (ch t)))%nat) by (apply NoDup_incl_length; [exact Nd|intros i Ii; apply (Inc i Ii)]).
  destruct (F t Ht) as (sel' & found & rest & A & B & C). rewrite (selects_unique _ _ _ _ A Hs) in B. clear sel' A. rewrite map_length in L1.
  apply Permutation_length in C. rewrite app_length, map_length in C.
  enough (L2 : (length (List.concat found) <= length sel)%nat) by lia. clear - B Hh Ht. assert (Hh' : forall level, In level sel -> exists f, field_at o t f /\ one_hill f level) by (intros; apply Hh; assumption). clear Hh.
  induction B as [|l N ls NS HN _ IH]; [cbn; lia|]. cbn [List.concat length]. rewrite app_length. destruct (Hh' l (or_introl eq_refl)) as (f & Hf & Hl). pose proof (found_one _ _ _ _ _ Hf Hl HN). specialize (IH (fun x Hx => Hh' x (or_intror Hx))). lia.
Qed.
Print Assumptions C130_one_eddy_per_level.

(** A spot of five points moving over 12 x 12 points (C115_case): one hill at every step, and one eddy at each *)
Definition on_border (cols rows p : Z) : bool := (row_of cols p =? 0) || (row_of cols p =? rows - 1) || (col_of cols p =? 0) || (col_of cols p =? cols - 1).
Lemma hill_computed f level T a n : map (value_above f level) (points (width f) (height f)) = T -> let above k := nth (Z.to_nat k) T false in
  (0 <=? a) && (a <? width f * height f) && above a && forallb (fun p => negb (on_border (width f) (height f) p) || negb (above p)) (points (width f) (height f)) = true ->
  all_grown (width f) (height f) above (fun b => if b then a else 0) n = true -> one_hill f level.
Proof.
  intros HT above H G. assert (Eq : forall k, S_Cntr.in_mesh (width f) (height f) k -> above k = value_above f level k).
  { intros k [K1 K2]. unfold above. rewrite <- HT. unfold points. rewrite map_map. rewrite (nth_indep _ false (value_above f level (Z.of_nat 0))) by (rewrite map_length, seq_length; lia).
    rewrite (map_nth (fun x => value_above f level (Z.of_nat x)) _ 0%nat), seq_nth by lia. f_equal. lia. }
  apply andb_true_iff in H as [H B]. apply andb_true_iff in H as [H V]. assert (A : S_Cntr.in_mesh (width f) (height f) a) by (unfold S_Cntr.in_mesh; lia). rewrite forallb_forall in B. exists true. split; [exists a; rewrite <- (Eq a A); auto|]. split.
  - intros p [Ip Bp]. specialize (B p (proj2 (in_points _ _ p) Ip)). cbn [negb]. rewrite <- (Eq p Ip). destruct (above p); [|reflexivity]. rewrite orb_false_r in B. unfold on_border in B. lia.
  - intros p q Ip Iq E. rewrite <- (Eq p Ip), <- (Eq q Iq) in E. apply (beside_same _ _ above _ p q Eq). exact (grown _ _ above beside_only (fun b => if b then a else 0) n G p q Ip Iq E).
Qed.
Example C130_run_case : let o := ex_tracker [spots [(3, 3)]; spots [(3, 4)]] in query_ok demo_hav (t_query o) /\ five_fitted o /\ selects (fun x => ~ zero x) [Num (1 # 2)] [Num (1 # 2)] /\
  (forall t level, In t (run_steps o 0 (Some 2)) -> In level [Num (1 # 2)] -> exists f, field_at o t f /\ one_hill f level) /\
  brief (fst (tracking o 0 (Some 2) (Some [Num (1 # 2)]) 5 true initial_state)) = Ok (eddy_labels 0 0 ++ eddy_labels 0 1)%list.
Proof.
  cbv zeta. split; [exact demo_ok|]. split; [apply ex_five|]. split; [apply sel_keep; [intros (q & E & Z0); injection E as <-; discriminate Z0|constructor]|]. split; [|vm_compute; reflexivity].
  intros t level Ht Hl. destruct Hl as [<-|[]]. assert (T : t = 0 \/ t = 1) by (destruct Ht as [<-|[<-|[]]]; auto).
  destruct T as [-> | ->]; [exists (spots [(3, 3)])|exists (spots [(3, 4)])]; (split; [eexists; split; [left; split; [lia|reflexivity]|reflexivity]|]); [eapply (hill_computed _ _ _ 39 25)|eapply (hill_computed _ _ _ 40 25)]; [vm_compute; reflexivity|vm_compute; reflexivity|vm_compute; reflexivity|vm_compute; reflexivity|vm_compute; reflexivity|vm_compute; reflexivity].
Qed.

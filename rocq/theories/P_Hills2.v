(** C153 for a whole run: a field with n hills (or n basins) at a level has at most n eddies there *)
From Coq Require Import Lia Permutation Bool Classical_Prop.
From Verif Require Import M_Base M_Tables M_Area M_Eddy M_Detect M_Cntr M_Extract M_Window M_Pipeline S_Cntr S_Tracking S_Levels S_Detect S_Window S_Pipeline S_Process S_Border S_Turn S_Hill S_Hills S_Hills2
  L_Loop L_Nest L_Hill L_Pipeline P_Cntr P_Detect P_Levels P_Tracking P_Window P_Pipeline P_Process P_Border P_Enclose P_Nest P_Hill L_Levels L_Detect4 L_Witness P_Hill2 P_Hills.
Open Scope Z_scope.

(** From a list of points we can leave out those that are related to others. *)
Lemma thin_out (rel : Z -> Z -> Prop) : (forall x, rel x x) -> (forall x y, rel x y -> rel y x) -> (forall x y z, rel x y -> rel y z -> rel x z) ->
  forall l, exists l', (length l' <= length l)%nat /\ incl l' l /\ NoDup l' /\ (forall x y, In x l' -> In y l' -> rel x y -> x = y) /\ forall x, In x l -> exists y, In y l' /\ rel y x.
Proof.
  intros Rf Sy Tr. induction l as [|a l (l' & L & I & N & A & C)]; [exists []; repeat split; [cbn; lia|intros x []|constructor|intros x y []|intros x []]|].
  destruct (classic (exists y, In y l' /\ rel y a)) as [(y & Y1 & Y2)|No].
  - exists l'. split; [cbn; lia|]. split; [intros x Hx; right; apply I, Hx|]. split; [exact N|]. split; [exact A|]. intros x [<-|Hx]; [exists y; auto|apply C, Hx].
  - exists (a :: l'). split; [cbn; lia|]. split; [intros x [<-|Hx]; [left; reflexivity|right; apply I, Hx]|]. split; [constructor; [intro Ha; apply No; exists a; auto|exact N]|]. split.
    + intros x y [<-|Hx] [<-|Hy] R; [reflexivity|exfalso; apply No; exists y; auto|exfalso; apply No; exists x; auto|apply A; assumption].
    + intros x [<-|Hx]; [exists a; split; [left; reflexivity|apply Rf]|]. destruct (C x Hx) as (y & Y1 & Y2). exists y. split; [right; exact Y1|exact Y2].
Qed.
Lemma few_lines o f level n cs : at_most_hills f level n -> contour_lines o f level cs -> (length cs <= n)%nat.
Proof.
  intros (hill & tops & Ln & C1 & R1 & Bd & Low & Ev) (curves & Fc & -> & Tv & (t & _ & Cu) & Hl). rewrite map_length.
  set (linked := connected (width f) (height f) (value_above f level) (fun k b => t k = b)).
  assert (W : forall p q, connected (width f) (height f) (value_above f level) beside_only p q -> linked p q) by (intros p q; apply connected_weaker; intros k b []).
  set (high := (fun h : Z => (0 <=? h) && (h <? width f * height f) && Bool.eqb (value_above f level h) hill)).
  destruct (thin_out linked) with (l := filter high tops) as (l' & L & I & N & A & C).
  - intro x. constructor.
  - intros x y. apply connected_sym.
  - intros x y z. apply connected_trans.
  - assert (Lf : (length (filter high tops) <= length tops)%nat) by (clear - high; induction tops as [|a l IH]; cbn; [lia|]; destruct (high a); cbn; lia).
    assert (T : forall h, In h l' -> S_Cntr.in_mesh (width f) (height f) h /\ value_above f level h = hill).
    { intros h Hh. apply I in Hh. apply filter_In in Hh as [_ Hh]. unfold high in Hh. apply andb_true_iff in Hh as [Hh E]. apply eqb_prop in E. split; [unfold S_Cntr.in_mesh; lia|exact E]. }
    destruct (several (width f) (height f) (value_above f level) C1 R1 t curves hill l' Fc Tv) as (cs & P & Fo).
    + intros c Hc Cc. rewrite Forall_forall in Fc, Cu, Hl. pose proof (Fc c Hc) as Ic. constructor; [exact Ic|exact (Hl c Hc Cc)|exact Cc|exact (Cu c Hc)|]. intros e He.
      destruct (cv_sides _ _ _ _ Ic e He) as [Se Ce]. rewrite (passes_visits _ (height f) (value_above f level) C1 c Ic Cc e Se). pose proof (visited _ _ _ c Ic Cc e He) as V1. pose proof (total_ge e c curves Hc) as V2. rewrite (Tv e Se Ce) in V2. lia.
    + exact Bd.
    + intros p q Ip Iq Hp Hq. apply W, Low; assumption.
    + exact T.
    + exact N.
    + exact A.
    + intros p Ip Hp. destruct (Ev p Ip Hp) as (h & H1 & Ih & H2). destruct (C h) as (y & Y1 & Y2).
      * apply filter_In. split; [exact H1|]. unfold high. rewrite (connected_above _ _ _ _ _ _ H2), Hp, eqb_reflx. unfold S_Cntr.in_mesh in Ih. lia.
      * exists y. split; [exact Y1|]. apply (connected_trans _ _ _ _ _ h); [exact Y2|apply W, H2].
    + apply Permutation_length in P. apply Forall2_length in Fo. lia.
Qed.
Lemma found_few o t level N f n : field_at o t f -> at_most_hills f level n -> found_at o t level N -> (length N <= n)%nat.
Proof.
  intros Hf Hh (f' & s & cs & fs & Hf' & _ & Hc & J & ->). rewrite (field_unique _ _ _ _ Hf' Hf) in Hc. pose proof (few_lines _ _ _ _ _ Hh Hc). apply Forall2_length in J. pose proof (kept_length fs). lia.
Qed.
Theorem C153_eddies_of_a_run : forall o hav t0 tf levels sel nt st files R st' n,
  query_ok hav (t_query o) -> five_fitted o -> process st -> selects (fun x => ~ zero x) levels sel ->
  (forall t level, In t (run_steps o t0 tf) -> In level sel -> exists f, field_at o t f /\ at_most_hills f level n) ->
  tracking o t0 tf (Some levels) nt true st = ((files, Ok R), st') ->
  forall t ids, NoDup ids -> (forall i, In i ids -> exists r, In r (rows R) /\ r_time r = t /\ r_id r = i) -> (length ids <= n * length sel)%nat.
Proof.
  intros o hav t0 tf levels sel nt st files R st' n Hq H5 Hp Hs Hh H t ids Nd Hi. destruct (C79_table_of_a_run _ _ _ _ _ _ _ _ _ _ Hq H5 Hp H) as [(ch & P & F) _].
  assert (Inc : forall i, In i ids -> In t (run_steps o t0 tf) /\ In i (map fst (ch t))).
  { intros i Ii. destruct (Hi i Ii) as (r & Hr & Et & Ei). apply (Permutation_in _ P), in_flat_map in Hr as (t' & Ht & Hr). apply in_flat_map in Hr as ([id e] & He & Hr). cbn [fst snd] in Hr.
    unfold rows_at in Hr. apply in_map_iff in Hr as (r0 & <- & Hr0). apply contour_rows_In in Hr0 as (A & _). cbn in Et, Ei. subst t'. split; [exact Ht|]. apply in_map_iff. exists (id, e). split; [cbn; congruence|exact He]. }
  destruct ids as [|i0 ids]; [cbn; lia|]. destruct (Inc i0 (or_introl eq_refl)) as [Ht _].
  assert (L1 : (length (i0 :: ids) <= length (map fst (ch t)))%nat) by (apply NoDup_incl_length; [exact Nd|intros i Ii; apply (Inc i Ii)]).
  destruct (F t Ht) as (sel' & found & rest & A & B & C). rewrite (selects_unique _ _ _ _ A Hs) in B. clear sel' A. rewrite map_length in L1.
  apply Permutation_length in C. rewrite app_length, map_length in C.
  enough (L2 : (length (List.concat found) <= n * length sel)%nat) by lia. clear - B Hh Ht. assert (Hh' : forall level, In level sel -> exists f, field_at o t f /\ at_most_hills f level n) by (intros; apply Hh; assumption). clear Hh.
  induction B as [|l N ls NS HN _ IH]; [cbn; lia|]. cbn [List.concat length]. rewrite app_length. destruct (Hh' l (or_introl eq_refl)) as (f & Hf & Hl). pose proof (found_few _ _ _ _ _ _ Hf Hl HN). specialize (IH (fun x Hx => Hh' x (or_intror Hx))). lia.
Qed.
Print Assumptions C153_eddies_of_a_run.

(** Two spots on 12 x 12 points at each of two steps: two hills, and two eddies *)
Definition hills_check (cols rows : Z) (above : Z -> bool) (tops : list Z) (n : nat) : bool :=
  let low := grow cols rows above n [0] in let high := map (fun h => grow cols rows above n [h]) tops in
  (1 <=? cols) && (1 <=? rows) && negb (above 0) && forallb (fun p => negb (on_border cols rows p) || negb (above p)) (points cols rows) && forallb (fun h => (0 <=? h) && (h <? cols * rows)) tops &&
  forallb (fun p => if above p then existsb (existsb (Z.eqb p)) high else existsb (Z.eqb p) low) (points cols rows).
Lemma hills_computed f level T tops n : map (value_above f level) (points (width f) (height f)) = T -> hills_check (width f) (height f) (fun k => nth (Z.to_nat k) T false) tops n = true -> at_most_hills f level (length tops).
Proof.
  intros HT H. set (above := fun k : Z => nth (Z.to_nat k) T false) in H. assert (Eq : forall k, S_Cntr.in_mesh (width f) (height f) k -> above k = value_above f level k).
  { intros k [K1 K2]. unfold above. rewrite <- HT. unfold points. rewrite map_map. rewrite (nth_indep _ false (value_above f level (Z.of_nat 0))) by (rewrite map_length, seq_length; lia).
    rewrite (map_nth (fun x => value_above f level (Z.of_nat x)) _ 0%nat), seq_nth by lia. f_equal. lia. }
  clearbody above. unfold hills_check in H. rewrite !andb_true_iff in H. destruct H as (((((C1 & R1) & Z0) & B) & Tp) & G). rewrite forallb_forall in B, Tp, G. apply Z.leb_le in C1, R1.
  assert (I0 : S_Cntr.in_mesh (width f) (height f) 0) by (unfold S_Cntr.in_mesh; nia).
  assert (Gr : forall a p, S_Cntr.in_mesh (width f) (height f) a -> existsb (Z.eqb p) (grow (width f) (height f) above n [a]) = true -> connected (width f) (height f) (value_above f level) beside_only a p).
  { intros a p Ia Hp. apply existsb_exists in Hp as (p' & Hp & E). apply Z.eqb_eq in E. subst p'. apply (beside_same _ _ above _ a p Eq). apply (grow_connected _ _ above beside_only a n [a]); [|exact Hp]. intros x [<-|[]]. split; [exact Ia|constructor]. }
  exists true, tops. split; [lia|]. split; [exact C1|]. split; [exact R1|]. split; [|split].
  - intros p [Ip Bp]. specialize (B p (proj2 (in_points _ _ p) Ip)). cbv beta in B. cbn [negb]. rewrite <- (Eq p Ip). destruct (above p); [|reflexivity]. cbn [negb] in B. rewrite orb_false_r in B. unfold on_border in B. lia.
  - intros p q Ip Iq Hp Hq. rewrite <- (Eq p Ip) in Hp. rewrite <- (Eq q Iq) in Hq. pose proof (G p (proj2 (in_points _ _ p) Ip)) as Gp. pose proof (G q (proj2 (in_points _ _ q) Iq)) as Gq. rewrite Hp in Gp. rewrite Hq in Gq. cbn [negb] in Gp, Gq.
    apply (connected_trans _ _ _ _ _ 0); [apply connected_sym|]; apply Gr; assumption.
  - intros p Ip Hp. rewrite <- (Eq p Ip) in Hp. pose proof (G p (proj2 (in_points _ _ p) Ip)) as Gp. rewrite Hp in Gp. apply existsb_exists in Gp as (g & Hg & Gp). apply in_map_iff in Hg as (h & <- & Hh). exists h. split; [exact Hh|]. specialize (Tp h Hh). assert (Ih : S_Cntr.in_mesh (width f) (height f) h) by (unfold S_Cntr.in_mesh; lia). split; [exact Ih|apply Gr; assumption].
Qed.
Lemma first_hills : at_most_hills (spots [(2, 3); (9, 6)]) (Num (1 # 2)) 2.
Proof. eapply (hills_computed _ _ _ [27; 114] 22); [vm_compute; reflexivity|]. vm_compute. reflexivity. Qed.
Lemma second_hills : at_most_hills (spots [(3, 3); (9, 7)]) (Num (1 # 2)) 2.
Proof. eapply (hills_computed _ _ _ [39; 115] 22); [vm_compute; reflexivity|]. vm_compute. reflexivity. Qed.
Example C153_run_case : let o := ex_tracker [spots [(2, 3); (9, 6)]; spots [(3, 3); (9, 7)]] in query_ok demo_hav (t_query o) /\ five_fitted o /\ selects (fun x => ~ zero x) [Num (1 # 2)] [Num (1 # 2)] /\
  (forall t level, In t (run_steps o 0 (Some 2)) -> In level [Num (1 # 2)] -> exists f, field_at o t f /\ at_most_hills f level 2) /\
  brief (fst (tracking o 0 (Some 2) (Some [Num (1 # 2)]) 5 true initial_state)) = Ok (eddy_labels 0 0 ++ eddy_labels 0 1 ++ eddy_labels 1 0 ++ eddy_labels 1 1)%list.
Proof.
  cbv zeta. split; [exact demo_ok|]. split; [apply ex_five|]. split; [apply sel_keep; [intros (q & E & Z0); injection E as <-; discriminate Z0|constructor]|]. split; [|vm_compute; reflexivity].
  intros t level Ht Hl. destruct Hl as [<-|[]]. assert (T : t = 0 \/ t = 1) by (destruct Ht as [<-|[<-|[]]]; auto).
  destruct T as [-> | ->]; [exists (spots [(2, 3); (9, 6)])|exists (spots [(3, 3); (9, 7)])]; (split; [eexists; split; [left; split; [lia|reflexivity]|reflexivity]|]); [exact first_hills|exact second_hills].
Qed.

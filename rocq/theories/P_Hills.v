(** C153: every hill has a contour of its own. *)
From Coq Require Import Reals Lra Lia Bool List Permutation.
From Verif Require Import M_Base M_Cntr M_Extract S_Cntr S_Border S_Cross S_Turn S_Enclose S_Hill S_Hills L_Turn L_Loop L_Nest L_Hill P_Cntr P_Lines P_Border P_Cross P_Turn P_Enclose P_Nest P_Hill S_Noise P_Noise P_NoiseLoop P_NoisyPeak.
Import ListNotations.
Open Scope Z_scope.

Lemma finite_choice (Q : Z -> Z -> Prop) : forall l, (forall x, In x l -> exists y, Q x y) -> exists f, forall x, In x l -> Q x (f x).
Proof.
  induction l as [|a l IH]; intro H; [exists (fun x => x); intros x []|]. destruct IH as (f & Hf); [intros x Hx; apply H; right; exact Hx|]. destruct (H a (or_introl eq_refl)) as (y & Hy).
  exists (fun x => if x =? a then y else f x). intros x Hx. destruct (Z.eqb_spec x a) as [->|N]; [exact Hy|]. apply Hf. destruct Hx as [->|Hx]; [destruct (N eq_refl)|exact Hx].
Qed.
Lemma list_choice {A B} (Q : A -> B -> Prop) l : (forall x, In x l -> exists y, Q x y) -> exists ys, Forall2 Q l ys.
Proof.
  induction l as [|a l IH]; intro H; [exists []; constructor|]. destruct IH as (ys & F); [intros x Hx; apply H; right; exact Hx|]. destruct (H a (or_introl eq_refl)) as (y & Hy). exists (y :: ys). constructor; assumption.
Qed.
Lemma Forall2_in_l {A B} (Q : A -> B -> Prop) l ys : Forall2 Q l ys -> forall x, In x l -> exists y, In y ys /\ Q x y.
Proof. induction 1 as [|a b l ys H _ IH]; intros x Hx; [destruct Hx|]. destruct Hx as [<-|Hx]; [exists b; split; [left; reflexivity|exact H]|]. destruct (IH x Hx) as (y & A1 & A2). exists y. split; [right; exact A1|exact A2]. Qed.
Lemma Forall2_in_r {A B} (Q : A -> B -> Prop) l ys : Forall2 Q l ys -> forall y, In y ys -> exists x, In x l /\ Q x y.
Proof. induction 1 as [|a b l ys H _ IH]; intros x Hx; [destruct Hx|]. destruct Hx as [<-|Hx]; [exists a; split; [left; reflexivity|exact H]|]. destruct (IH x Hx) as (y & A1 & A2). exists y. split; [right; exact A1|exact A2]. Qed.
Lemma Forall2_flip {A B} (Q : A -> B -> Prop) l ys : Forall2 Q l ys -> Forall2 (fun y x => Q x y) ys l.
Proof. induction 1; constructor; assumption. Qed.
Lemma Forall2_NoDup {A B} (Q : A -> B -> Prop) l ys : Forall2 Q l ys -> NoDup l -> (forall a a' b, In a l -> In a' l -> Q a b -> Q a' b -> a = a') -> NoDup ys.
Proof.
  induction 1 as [|a b l ys H F IH]; intros N U; [constructor|]. apply NoDup_cons_iff in N as [N1 N2]. constructor; [|apply IH; [exact N2|intros; eapply U; eauto; right; assumption]].
  intro Hb. destruct (Forall2_in_r Q l ys F b Hb) as (a' & Ha & Hq). apply N1. rewrite (U a a' b (or_introl eq_refl) (or_intror Ha) H Hq). exact Ha.
Qed.

Section Mesh.
Variables cols rows : Z.
Variable above : Z -> bool.
Hypothesis C1 : 1 <= cols.
Hypothesis R1 : 1 <= rows.
Variable t : Z * Z -> bool.
Notation linked := (connected cols rows above (fun k b => t k = b)).
Variable curves : list (list (Z * Z)).
Variable b : bool.
Variable tops : list Z.
Hypothesis Fc : Forall (is_curve cols rows above) curves.
Hypothesis Tv : forall e, side cols rows e -> crossed above e -> total_visits e curves = 1%nat.
Hypothesis Gd : forall c, In c curves -> closed_curve c -> good cols rows above t c.
Hypothesis Bd : forall p, border_point cols rows p -> above p = negb b.
Hypothesis Low : forall p q, in_mesh cols rows p -> in_mesh cols rows q -> above p = negb b -> above q = negb b -> linked p q.
Hypothesis Tops : forall h, In h tops -> in_mesh cols rows h /\ above h = b.
Hypothesis Nd : NoDup tops.
Hypothesis Ap : forall h h', In h tops -> In h' tops -> linked h h' -> h = h'.
Hypothesis Ev : forall p, in_mesh cols rows p -> above p = b -> exists h, In h tops /\ linked h p.

Lemma curves_nodup : NoDup curves.
Proof using All.
  assert (K : forall l, Forall (is_curve cols rows above) l -> (forall e, side cols rows e -> crossed above e -> (total_visits e l <= 1)%nat) -> NoDup l).
  { induction l as [|c l IH]; intros F T; [constructor|]. pose proof (Forall_inv F) as Ic. constructor.
    - intro Hc. pose proof (cv_length _ _ _ _ Ic) as L. destruct c as [|e c'] eqn:Ec; [cbn in L; lia|]. rewrite <- Ec in *. assert (He : In e c) by (rewrite Ec; left; reflexivity). destruct (cv_sides _ _ _ _ Ic e He) as [Se Ce].
      pose proof (T e Se Ce) as V. unfold total_visits in V. cbn [fold_right] in V. fold (total_visits e l) in V. pose proof (total_ge e c l Hc) as W. pose proof (visits_pos cols rows above c e Ic ltac:(exists e; split; [exact He|left; reflexivity])). lia.
    - apply IH; [exact (Forall_inv_tail F)|]. intros e Se Ce. pose proof (T e Se Ce) as V. unfold total_visits in V. cbn [fold_right] in V. fold (total_visits e l) in V. lia. }
  apply K; [exact Fc|]. intros e Se Ce. rewrite (Tv e Se Ce). lia.
Qed.
Definition own (c : list (Z * Z)) (h : Z) : Prop := In h tops /\ closed_curve c /\ good cols rows above t c /\ forall sx, sx = 1 \/ sx = -1 -> forall p, in_mesh cols rows p -> (inside_at cols c sx p = true <-> linked h p).

Lemma several : exists cs, Permutation curves cs /\ Forall2 (fun h c => own c h) tops cs.
Proof using All.
  pose proof Fc as Fc'. rewrite Forall_forall in Fc'.
  assert (B0 : border_point cols rows 0) by (split; [unfold in_mesh; nia|left; unfold row_of; apply Z.div_0_l; lia]).
  assert (Cl : forall c, In c curves -> closed_curve c) by (intros c Hc; apply (inner_closed cols rows above c (Fc' c Hc)); intros k k' K K'; rewrite (Bd k K), (Bd k' K'); reflexivity).
  destruct (finite_choice (fun p h => above p = b -> In h tops /\ linked h p) (points cols rows)) as (f & Hf).
  { intros p Hp. apply in_points in Hp. destruct (bool_dec (above p) b) as [A|A]; [|exists 0; intro X; destruct (A X)]. destruct (Ev p Hp A) as (h & H1 & H2). exists h. auto. }
  assert (F : forall p, in_mesh cols rows p -> above p = b -> In (f p) tops /\ linked (f p) p) by (intros p Ip A; apply Hf; [apply in_points, Ip|exact A]).
  assert (Fe : forall p h, in_mesh cols rows p -> In h tops -> linked h p -> f p = h).
  { intros p h Ip Hh L. assert (A : above p = b) by (rewrite <- (connected_above _ _ _ _ _ _ L); apply Tops, Hh). destruct (F p Ip A) as [F1 F2]. apply Ap; [exact F1|exact Hh|]. apply (connected_trans _ _ _ _ _ p); [exact F2|apply connected_sym, L]. }
  assert (Ff : forall p q, in_mesh cols rows p -> in_mesh cols rows q -> above p = b -> linked p q -> f p = f q).
  { intros p q Ip Iq A L. symmetry. destruct (F p Ip A) as [F1 F2]. apply Fe; [exact Iq|exact F1|]. apply (connected_trans _ _ _ _ _ p); assumption. }
  assert (Neg : forall p, above p <> b -> above p = negb b) by (intros p N; destruct (above p), b; cbn; congruence).
  (* a curve encloses the hill at the ends of its sides *)
  assert (Enc : forall c, In c curves -> forall p q, side cols rows (p, q) -> above p = b -> above q = negb b -> goes_through c p q -> own c (f p)).
  { intros c Hc p q S A A' G. pose proof (Cl c Hc) as Cc. pose proof (Gd c Hc Cc) as Gc. pose proof S as (Ip & Iq & _). destruct (F p Ip A) as [T1 T2]. split; [exact T1|]. split; [exact Cc|]. split; [exact Gc|]. destruct Gc as [Ic Hl _ Cu Un]. intros sx SX.
    pose proof (separated cols rows above C1 c Ic Hl Cc sx SX Un) as Sp. pose proof (connected_alike cols rows C1 above t c Ic Hl Cc Cu _ Sp) as Al.
    assert (O0 : inside_at cols c sx 0 = false) by (apply (border_outside cols rows above C1 c Ic Hl Cc sx SX); apply B0).
    assert (Out : forall u, in_mesh cols rows u -> above u = negb b -> inside_at cols c sx u = false) by (intros u Iu Au; rewrite (Al u 0); [exact O0|]; apply Low; [exact Iu|apply B0|exact Au|apply Bd, B0]).
    assert (Hp : inside_at cols c sx p = true).
    { pose proof (proj2 (Sp (p, q) S) (proj1 (goes_through_iff c p q) G)) as X. cbn [fst snd] in X. rewrite (Out q Iq A') in X. destruct (inside_at cols c sx p); [reflexivity|discriminate X]. }
    (* the high ends of its sides are connected *)
    assert (On : forall u v, side cols rows (u, v) -> above u = b -> above v = negb b -> inside_at cols c sx u = true -> f u = f p).
    { intros u v S' Au Av Hu. pose proof S' as (Iu & Iv & _). assert (G' : goes_through c u v) by (apply goes_through_iff, (Sp (u, v) S'); cbn [fst snd]; rewrite Hu, (Out v Iv Av); reflexivity).
      destruct (through_end cols rows above c b p q Ic G A) as (e & He & Ee). destruct (through_end cols rows above c b u v Ic G' Au) as (e' & He' & Ee').
      apply Ff; [exact Iu|exact Ip|exact Au|]. rewrite <- Ee, <- Ee'. apply (along_connected cols rows C1 above t c Ic Cu b e' e He' He). }
    intros u Iu. split; intro H; [|rewrite <- Hp, <- (Al (f p) u H); apply Al, T2].
    assert (Au : above u = b) by (destruct (bool_dec (above u) b) as [E|N]; [exact E|]; rewrite (Out u Iu (Neg u N)) in H; discriminate H).
    enough (E : f u = f p) by (rewrite <- E; apply (F u Iu Au)). destruct (Z.eq_dec (f u) (f p)) as [E|N]; [exact E|]. exfalso.
    assert (P : (inside_at cols c sx u && negb (f u =? f p))%bool = (inside_at cols c sx 0 && negb (f 0 =? f p))%bool).
    { apply (all_or_none cols rows C1 (fun u => inside_at cols c sx u && negb (f u =? f p))%bool); [|exact Iu|apply B0]. intros v w S'. pose proof S' as (Iv & Iw & _).
      destruct (bool_dec (above v) (above w)) as [E|Nw].
      - assert (L : linked v w) by (apply (Beside _ _ _ _ v w w S' E); constructor). rewrite (Al v w L). destruct (inside_at cols c sx w) eqn:Hw; [|reflexivity].
        assert (Aw : above w = b) by (destruct (bool_dec (above w) b) as [X|X]; [exact X|]; rewrite (Out w Iw (Neg w X)) in Hw; discriminate Hw). rewrite (Ff v w Iv Iw ltac:(congruence) L). reflexivity.
      - destruct (bool_dec (above v) b) as [Av|Av].
        + assert (Aw : above w = negb b) by (apply Neg; congruence). rewrite (Out w Iw Aw). destruct (inside_at cols c sx v) eqn:Hv; [|reflexivity]. rewrite (On v w S' Av Aw Hv), Z.eqb_refl. reflexivity.
        + pose proof (Neg v Av) as Av'. assert (Aw : above w = b) by (destruct (above v), (above w), b; cbn in *; congruence). rewrite (Out v Iv Av'). destruct (inside_at cols c sx w) eqn:Hw; [|reflexivity].
          rewrite (On w v (side_sym cols rows v w S') Aw Av' Hw), Z.eqb_refl. reflexivity. }
    rewrite H, O0 in P. apply Z.eqb_neq in N. rewrite N in P. discriminate P. }
  (* the ends of a crossed side *)
  assert (Two : forall p q, side cols rows (p, q) -> crossed above (p, q) -> exists u v, side cols rows (u, v) /\ above u = b /\ above v = negb b /\ forall c, goes_through c p q -> goes_through c u v).
  { intros p q S Cr. unfold crossed in Cr. cbn [fst snd] in Cr. destruct (bool_dec (above p) b) as [A|A].
    - exists p, q. split; [exact S|]. split; [exact A|]. split; [apply Neg; congruence|auto].
    - exists q, p. split; [apply side_sym, S|]. split; [pose proof (Neg p A); destruct (above p), (above q), b; cbn in *; congruence|]. split; [apply Neg, A|]. intros c [H|H]; [right|left]; exact H. }
  assert (Each : forall c, In c curves -> exists h, own c h).
  { intros c Hc. pose proof (Fc' c Hc) as Ic. pose proof (cv_length _ _ _ _ Ic) as L. destruct c as [|[p q] l] eqn:Ec; [cbn in L; lia|]. rewrite <- Ec in *. assert (He : In (p, q) c) by (rewrite Ec; left; reflexivity). destruct (cv_sides _ _ _ _ Ic _ He) as [S Cr].
    destruct (Two p q S Cr) as (u & v & S' & A & A' & G). exists (f u). apply (Enc c Hc u v S' A A'), G. left. exact He. }
  assert (Uniq : forall c c' h, In c curves -> In c' curves -> own c h -> own c' h -> c = c').
  { intros c c' h Hc Hc' (_ & _ & _ & O) (_ & Cc' & Gc' & O'). pose proof (Fc' c Hc) as Ic. pose proof (cv_length _ _ _ _ Ic) as L. destruct c as [|[p q] l] eqn:Ec; [cbn in L; lia|]. rewrite <- Ec in *. assert (He : In (p, q) c) by (rewrite Ec; left; reflexivity). destruct (cv_sides _ _ _ _ Ic _ He) as [S Cr].
    pose proof (Gd c Hc (Cl c Hc)) as Gc. pose proof S as (Ip & Iq & _). apply (one_curve cols rows above curves c c' (p, q) Fc Hc Hc'); [exists (p, q); split; [exact He|left; reflexivity]| |apply Tv; assumption].
    destruct Gc' as [Ic' Hl' _ Cu' Un']. destruct Gc as [_ Hl Cc Cu Un]. apply (separated cols rows above C1 c' Ic' Hl' Cc' 1 (or_introl eq_refl) Un' (p, q) S). pose proof (apart cols rows above C1 c Ic Hl Cc 1 (or_introl eq_refl) Un _ He) as X. cbn [fst snd] in *.
    assert (Same : forall u, in_mesh cols rows u -> inside_at cols c' 1 u = inside_at cols c 1 u) by (intros u Iu; apply eq_true_iff_eq; rewrite (O 1 (or_introl eq_refl) u Iu), (O' 1 (or_introl eq_refl) u Iu); reflexivity).
    rewrite (Same p Ip), (Same q Iq), X. destruct (inside_at cols c 1 q); reflexivity. }
  destruct (list_choice own curves Each) as (gs & Fg).
  assert (Perm : Permutation gs tops).
  { apply NoDup_Permutation; [apply (Forall2_NoDup own curves gs Fg curves_nodup); intros c c' h H1 H2; apply Uniq; assumption|exact Nd|]. intro h. split.
    - intro H. destruct (Forall2_in_r own curves gs Fg h H) as (c & _ & T & _). exact T.
    - intro Hh. destruct (in_dec Z.eq_dec h gs) as [D|D]; [exact D|]. exfalso. destruct (Tops h Hh) as [Ih Ah].
      assert (P : (Bool.eqb (above h) b && (f h =? h))%bool = (Bool.eqb (above 0) b && (f 0 =? h))%bool).
      { apply (all_or_none cols rows C1 (fun u => Bool.eqb (above u) b && (f u =? h))%bool); [|exact Ih|apply B0]. intros u v S. pose proof S as (Iu & Iv & _).
        destruct (bool_dec (above u) (above v)) as [E|N].
        - rewrite E. destruct (Bool.eqb (above v) b) eqn:Ev'; [|reflexivity]. apply eqb_prop in Ev'. rewrite (Ff u v Iu Iv); [reflexivity|congruence|]. apply (Beside _ _ _ _ u v v S E). constructor.
        - destruct (total_has curves (u, v)) as (c & Hc & Hg); [rewrite (Tv (u, v) S N); lia|]. pose proof (proj2 (goes_through_iff c u v) Hg) as G. assert (G' : goes_through c v u) by (destruct G as [G|G]; [right|left]; exact G).
          assert (No : forall w w', side cols rows (w, w') -> above w = b -> above w' = negb b -> goes_through c w w' -> (f w =? h) = false).
          { intros w w' S' A A' Gw. apply Z.eqb_neq. intro X. apply D. pose proof (Enc c Hc w w' S' A A' Gw) as Ow. rewrite X in Ow. destruct (Forall2_in_l own curves gs Fg c Hc) as (h' & Hh' & Oh'). enough (h = h') by (subst h'; exact Hh').
            destruct Ow as (T1 & _ & _ & Q). destruct Oh' as (T2 & _ & _ & Q'). apply Ap; [exact T1|exact T2|]. apply connected_sym. apply (Q' 1 (or_introl eq_refl) h Ih), (Q 1 (or_introl eq_refl) h Ih). constructor. }
          destruct (bool_dec (above u) b) as [A|A].
          + assert (A' : above v = negb b) by (apply Neg; congruence). rewrite (No u v S A A' G), A'. destruct b; cbn; rewrite ?andb_false_r; reflexivity.
          + pose proof (Neg u A) as A1. assert (A' : above v = b) by (destruct (above u), (above v), b; cbn in *; congruence). rewrite (No v u (side_sym cols rows u v S) A' A1 G'), A1. destruct b; cbn; rewrite ?andb_false_r; reflexivity. }
      rewrite (Fe h h Ih Hh ltac:(constructor)), Ah, Z.eqb_refl, (Bd 0 B0) in P. destruct b; discriminate P. }
  destruct (Permutation_Forall2 Perm (Forall2_flip own curves gs Fg)) as (cs & P1 & P2). exists cs. split; [exact P1|exact P2].
Qed.
End Mesh.

Open Scope R_scope.
(** C153: every hill has exactly one contour, which is closed and encloses this hill and nothing else, and there are no other contours. *)
Theorem C153_every_hill_has_its_contour : forall fuel mem x y z level hill tops segments codes, meshed x y z -> (2 <= m_cols R z)%Z -> (2 <= m_rows R z)%Z -> with_axes x y z -> misses_the_level z level -> enough z fuel ->
  hills_at z level hill tops -> extractR fuel mem x y z level = Ok (segments, codes) ->
  exists outlines, Permutation segments (map (Verts R) outlines) /\
    Forall2 (fun h vs => closed_outline vs /\ forall p, in_mesh (m_cols R z) (m_rows R z) p -> (inside_of vs (node x y p) <-> joined_on_one_side z level h p)) tops outlines.
Proof.
  intros fuel mem x y z level hill tops segments codes M C2 R2 A Ms F [Bd Low Tops [Nd Ap] Ev] E. assert (C1 : (1 <= m_cols R z)%Z) by apply M. assert (R1 : (1 <= m_rows R z)%Z) by apply M.
  destruct (good_visits R Rplus Rminus Rmult Rdiv 4 Rgtb Reqb fuel mem x y z level M F) as (t & curves & cd & E' & Fc & HT & Gd & Tv). unfold extractR in E. rewrite E' in E. injection E as <- _.
  destruct (several (m_cols R z) (m_rows R z) (above_of R Rgtb z level) C1 R1 _ curves hill tops Fc (Tv C2 R2) (fun c H1 H2 => mean_good z level t c HT (Gd c H1 H2)) Bd Low Tops Nd Ap Ev) as (cs & P & Fo).
  exists (map (map (vertex R Rplus Rminus Rmult Rdiv x y z level)) cs). split.
  - rewrite map_map. unfold drawn. apply Permutation_map, P.
  - clear P. induction Fo as [|h c tops' cs (Th & Cc & Gc & O) _ IH]; constructor.
    + destruct Gc as [Ic Hl _ _ _]. split; [apply closed_map; [apply (cv_length _ _ _ _ Ic)|exact Cc]|].
      destruct A as (xs & ys & MX & MY & AX). destruct (axis_sign _ _ MX) as (sx & SX & RX). destruct (axis_sign _ _ MY) as (sy & SY & RY). intros p Ip.
      rewrite (inside_plane x y z xs ys C1 AX level Ms c Ic Hl Cc sx sy SX SY RX RY p Ip). exact (O sx SX p Ip).
    + exact IH.
Qed.
Print Assumptions C153_every_hill_has_its_contour.
(** In particular the number of contours is the number of hills. *)
Corollary C153_as_many_contours_as_hills : forall fuel mem x y z level hill tops segments codes, meshed x y z -> (2 <= m_cols R z)%Z -> (2 <= m_rows R z)%Z -> with_axes x y z -> misses_the_level z level -> enough z fuel ->
  hills_at z level hill tops -> extractR fuel mem x y z level = Ok (segments, codes) -> length segments = length tops.
Proof.
  intros fuel mem x y z level hill tops segments codes M C2 R2 A Ms F H E. destruct (C153_every_hill_has_its_contour fuel mem x y z level hill tops segments codes M C2 R2 A Ms F H E) as (o & P & Fo).
  rewrite (Permutation_length P), map_length. symmetry. clear - Fo. induction Fo; cbn; congruence.
Qed.
Print Assumptions C153_as_many_contours_as_hills.

(** Noise that is smaller than the margins (C149) changes neither the number of contours nor the points they enclose. *)
Lemma connected_back z z' level eps p q : noisy z z' eps -> clear_of z level eps -> joined_on_one_side z' level p q -> joined_on_one_side z level p q.
Proof.
  intros N C H. unfold joined_on_one_side in *. rewrite (nz_rows _ _ _ N), (nz_cols _ _ _ N) in H.
  assert (K : forall k, S_Cntr.in_mesh (m_cols R z) (m_rows R z) k -> is_higher (m_at R z' k) level = is_higher (m_at R z k) level) by (intros k Ik; apply (above_kept z z' level eps N C k Ik)).
  induction H as [p|p q r S E _ IH|k p q r Ck Am Ip Iq Pp Pq E Kn _ IH]; [constructor| |].
  - apply (Beside _ _ _ _ p q r); [exact S| |exact IH]. destruct S as (Ip & Iq & _). rewrite <- !K by assumption. exact E.
  - assert (Am' : ambiguous (m_cols R z) (fun k => is_higher (m_at R z k) level) k) by (apply (ambiguous_kept z z' level eps N C k Ck), Am).
    apply (Across _ _ _ _ k p q r); try assumption.
    + rewrite <- !K by assumption. exact E.
    + cbv beta in *. rewrite <- (K p Ip), <- Kn. symmetry. exact (mean_kept z z' level eps k N C Ck Am').
Qed.
Theorem C153_hills_in_noise : forall fuel mem x y z z' eps level hill tops segments codes, meshed x y z -> (2 <= m_cols R z)%Z -> (2 <= m_rows R z)%Z -> with_axes x y z -> enough z fuel -> noisy z z' eps -> clear_of z level eps ->
  hills_at z level hill tops -> extractR fuel mem x y z' level = Ok (segments, codes) ->
  exists outlines, Permutation segments (map (Verts R) outlines) /\
    Forall2 (fun h vs => closed_outline vs /\ forall p, in_mesh (m_cols R z) (m_rows R z) p -> (inside_of vs (node x y p) <-> joined_on_one_side z level h p)) tops outlines.
Proof.
  intros fuel mem x y z z' eps level hill tops segments codes M C2 R2 Ax F N C [Bd Low Tops [Nd Ap] Ev] E. pose proof N as [Nr Nc Nv]. pose proof (co_values _ _ _ C) as Cl.
  assert (M' : meshed x y z') by (unfold meshed in *; rewrite Nr, Nc; exact M). assert (F' : enough z' fuel) by (unfold enough in *; rewrite Nr, Nc; exact F). assert (Ax' : with_axes x y z') by (unfold with_axes in *; rewrite Nr, Nc; exact Ax).
  assert (Ms' : misses_the_level z' level) by (intros k Hk X; rewrite Nr, Nc in Hk; pose proof (Cl k Hk) as Y; pose proof (Nv k Hk) as W; rewrite X, Rabs_minus_sym in W; lra).
  assert (K : forall k, S_Cntr.in_mesh (m_cols R z) (m_rows R z) k -> is_higher (m_at R z' k) level = is_higher (m_at R z k) level) by (intros k Ik; apply (above_kept z z' level eps N C k Ik)).
  assert (H' : hills_at z' level hill tops).
  { constructor; rewrite ?Nr, ?Nc.
    - intros p Bp. rewrite (K p (proj1 Bp)). apply Bd, Bp.
    - intros p q Ip Iq Hp Hq. rewrite K in Hp by assumption. rewrite K in Hq by assumption. apply (connected_kept z z' level eps p q N C), Low; assumption.
    - intros h Hh. destruct (Tops h Hh) as [Ih Ah]. split; [exact Ih|]. rewrite (K h Ih). exact Ah.
    - split; [exact Nd|]. intros h h' Hh Hh' J. apply Ap; [exact Hh|exact Hh'|]. apply (connected_back z z' level eps h h' N C J).
    - intros p Ip Hp. rewrite K in Hp by assumption. destruct (Ev p Ip Hp) as (h & H1 & H2). exists h. split; [exact H1|]. apply (connected_kept z z' level eps h p N C H2). }
  destruct (C153_every_hill_has_its_contour fuel mem x y z' level hill tops segments codes M' ltac:(rewrite Nc; exact C2) ltac:(rewrite Nr; exact R2) Ax' Ms' F' H' E) as (o & P & Fo). exists o. split; [exact P|].
  clear - Fo N C Nr Nc. rewrite Nr, Nc in Fo. induction Fo as [|h vs l o [Co I] _ IH]; constructor; [|exact IH]. split; [exact Co|]. intros p Ip. rewrite (I p Ip). split; [apply (connected_back z z' level eps h p N C)|apply (connected_kept z z' level eps h p N C)].
Qed.
Print Assumptions C153_hills_in_noise.

(** *** The hypotheses are met: two summits on 5 x 3 points, with and without noise *)
Definition twinX : mat R := mkMat R 3 5 (fun k => IZR (k mod 5)).
Definition twinY : mat R := mkMat R 3 5 (fun k => IZR (k / 5)).
Definition twinZ : mat R := mkMat R 3 5 (fun k => if ((k =? 6) || (k =? 8))%Z then 1 else 0).
Definition twinZ' : mat R := mkMat R 3 5 (fun k => if (k =? 6)%Z then 11 / 10 else if (k =? 8)%Z then 9 / 10 else if (k =? 7)%Z then 1 / 10 else 0).
Definition twin (k : Z) : bool := ((k =? 6) || (k =? 8))%Z.
Lemma twin_above k : is_higher (m_at R twinZ k) (1 / 2) = twin k.
Proof. unfold is_higher, twin. cbn [twinZ m_at]. destruct ((k =? 6) || (k =? 8))%Z; destruct (Rlt_dec _ _); try reflexivity; lra. Qed.
(** A summit is connected to nothing but itself. *)
Lemma twin_alone p q : joined_on_one_side twinZ (1 / 2) p q -> twin p = true -> q = p.
Proof.
  intros H. induction H as [p|p q r S E _ IH|k p q r Ck Am Ip Iq Pp Pq E Kn _ IH]; intro Hp; [reflexivity| |]; cbv beta in E; rewrite !twin_above in E.
  - exfalso. rewrite Hp in E. symmetry in E. unfold twin in Hp, E. destruct S as (_ & _ & S). unfold row_of, col_of in S. cbn [twinZ m_cols] in S.
    assert (P : p = 6%Z \/ p = 8%Z) by lia. assert (Q : q = 6%Z \/ q = 8%Z) by lia. destruct P as [-> | ->], Q as [-> | ->]; cbn in S; lia.
  - exfalso. destruct k as [i j]. destruct Am as (A1 & A2 & A3). cbv beta in A1, A2, A3. rewrite !twin_above in A1. rewrite !twin_above in A2. rewrite !twin_above in A3. unfold twin, corner in *. cbn [fst snd twinZ m_cols m_rows] in *. destruct Ck as [C1 C2]. cbn [fst snd twinZ m_cols m_rows] in *. lia.
Qed.
Example C153_case : meshed twinX twinY twinZ /\ (2 <= m_cols R twinZ)%Z /\ (2 <= m_rows R twinZ)%Z /\ with_axes twinX twinY twinZ /\ misses_the_level twinZ (1 / 2) /\ enough twinZ 80 /\ hills_at twinZ (1 / 2) true [6; 8]%Z /\
  noisy twinZ twinZ' (1 / 10) /\ clear_of twinZ (1 / 2) (1 / 10) /\ (exists s c, extractR 80 (fun _ => blank) twinX twinY twinZ (1 / 2) = Ok (s, c)) /\ exists s c, extractR 80 (fun _ => blank) twinX twinY twinZ' (1 / 2) = Ok (s, c).
Proof.
  assert (M : meshed twinX twinY twinZ) by (unfold meshed; cbn; lia). assert (F : enough twinZ 80) by (unfold enough; cbn; lia).
  split; [exact M|]. split; [cbn; lia|]. split; [cbn; lia|]. split; [exists IZR, IZR; split; [left; intros; apply IZR_lt; assumption|]; split; [left; intros; apply IZR_lt; assumption|]; intros k _; split; reflexivity|].
  split; [intros k _; cbn; destruct ((k =? 6) || (k =? 8))%Z; lra|]. split; [exact F|]. split; [|split; [|split; [|split]]].
  - constructor; cbn [twinZ m_cols m_rows].
    + intros p ((P1 & P2) & B). change (is_higher (m_at R twinZ p) (1 / 2) = negb true). rewrite twin_above. unfold twin. destruct (Z.eqb_spec p 6) as [-> |N]; [exfalso; unfold row_of, col_of in B; cbn in B; lia|].
      destruct (Z.eqb_spec p 8) as [-> |N']; [exfalso; unfold row_of, col_of in B; cbn in B; lia|reflexivity].
    + intros p q Ip Iq Hp Hq. change (is_higher (m_at R twinZ p) (1 / 2) = negb true) in Hp. change (is_higher (m_at R twinZ q) (1 / 2) = negb true) in Hq. rewrite twin_above in Hp, Hq.
      assert (K : forall r, S_Cntr.in_mesh 5 3 r -> twin r = false -> joined_on_one_side twinZ (1 / 2) 0 r).
      { intros r Ir Hr. assert (G : forall kn, connected 5 3 twin kn 0 r).
        { intro kn. apply (grow_connected 5 3 twin kn 0 10 [0%Z]); [intros a [<-|[]]; split; [unfold S_Cntr.in_mesh; lia|constructor]|]. apply in_points in Ir. revert r Ir Hr. apply (proj1 (Forall_forall (fun r => twin r = false -> In r (grow 5 3 twin 10 [0%Z])) (points 5 3))).
          vm_compute. repeat (apply Forall_cons; [intro X; first [discriminate X|intuition]|]). apply Forall_nil. }
        unfold joined_on_one_side. cbn [m_cols m_rows twinZ]. specialize (G (fun q b => is_higher (mean_value twinZ q) (1 / 2) = b)).
        clear - G. induction G as [p|p q r S A _ IH|k p q r A1 A2 A3 A4 A5 A6 A7 A8 _ IH]; [constructor| |].
        - apply (Beside _ _ _ _ p q r S); [change (is_higher (m_at R twinZ p) (1 / 2) = is_higher (m_at R twinZ q) (1 / 2)); rewrite !twin_above; exact A|exact IH].
        - exfalso. destruct k as [i j]. destruct A2 as (B1 & B2 & B3). destruct A1 as [C1 C2]. unfold twin, corner in *. cbn [fst snd] in *. lia. }
      apply (connected_trans _ _ _ _ _ 0%Z); [apply connected_sym|]; apply K; assumption.
    + intros h Hh. change (S_Cntr.in_mesh 5 3 h /\ is_higher (m_at R twinZ h) (1 / 2) = true). rewrite twin_above. destruct Hh as [<-|[<-|[]]]; (split; [unfold S_Cntr.in_mesh; lia|reflexivity]).
    + split; [repeat constructor; cbn; intuition discriminate|]. intros h h' Hh _ J. symmetry. apply (twin_alone h h' J). destruct Hh as [<-|[<-|[]]]; reflexivity.
    + intros p Ip Hp. change (is_higher (m_at R twinZ p) (1 / 2) = true) in Hp. rewrite twin_above in Hp. exists p. split; [|constructor]. unfold twin in Hp. cbn. lia.
  - constructor; [reflexivity..|]. intros k _. cbn [twinZ twinZ' m_at]. destruct (Z.eqb_spec k 6), (Z.eqb_spec k 8), (Z.eqb_spec k 7); cbn [orb]; try lia; apply Rabs_le; lra.
  - constructor; [intros k _; cbn [twinZ m_at]; destruct ((k =? 6) || (k =? 8))%Z; unfold Rabs; destruct (Rcase_abs _); lra|]. intros q Cq S. exfalso. destruct q as [i j]. destruct Cq as [C1 C2]. unfold saddle in S. cbn [fst snd twinZ m_at m_cols m_rows] in *.
    assert (T : forall k, 1 / 2 < (if ((k =? 6) || (k =? 8))%Z then 1 else 0) <-> (k = 6 \/ k = 8)%Z) by (intro k; destruct (Z.eqb_spec k 6), (Z.eqb_spec k 8); cbn [orb]; split; intro; try lia; lra).
    rewrite !T in S. lia.
  - exact (C64_tracing_stays_inside_the_arrays R Rplus Rminus Rmult Rdiv 4 Rgtb Reqb 80 (fun _ => blank) twinX twinY twinZ (1 / 2) M F).
  - exact (C64_tracing_stays_inside_the_arrays R Rplus Rminus Rmult Rdiv 4 Rgtb Reqb 80 (fun _ => blank) twinX twinY twinZ' (1 / 2) ltac:(unfold meshed; cbn; lia) ltac:(unfold enough; cbn; lia)).
Qed.

(** Property theorems: merging the eddies found at successive levels (C14 - C17). *)
From Verif Require Import M_Base M_Tables S_Tracking S_Levels L_Base L_Levels L_Levels2 L_Levels3 L_Levels4 L_Levels5 L_Witness.
Open Scope Z_scope.

(** The level loop of _detect_snapshot (trackeddy.py 226-264) run on the tables of the given levels. *)
Definition scan (query : list (Q * Q) -> list (Q * Q) -> list (Q * nat)) (keep : bool) (levels : list (list eddy)) : res frame :=
  level_loop query keep empty_frame (map (fun N => Ok (level_table N)) levels).

(** *** examples: eddies of two contour points *)
Definition ed (y x rad ell gau : Q) : eddy :=
  [mkCols (Num y) (Num x) (Num rad) (Num ell) (Num gau) [Num 1]; mkCols (Num y) (Num x) (Num rad) (Num ell) (Num gau) [Num 2]].
Lemma ed_ok y x rad ell gau : eddy_ok (ed y x rad ell gau).
Proof. exists (y, x). do 2 eexists. split; [reflexivity|split; reflexivity]. Qed.
Lemma ed_near y x rad ell gau y' x' rad' ell' gau' :
  (demo_hav (y, x) (y', x') * 6371 < rad)%Q -> near demo_hav (ed y x rad ell gau) (ed y' x' rad' ell' gau').
Proof.
  intro H. exists (y, x), (y', x'), rad. split; [|split; [|split; [|exact H]]]; do 2 eexists; (split; [reflexivity|]); repeat split; reflexivity.
Qed.
Lemma ed_far y x rad ell gau y' x' rad' ell' gau' :
  near demo_hav (ed y x rad ell gau) (ed y' x' rad' ell' gau') -> (demo_hav (y, x) (y', x') * 6371 < rad)%Q.
Proof.
  intros (pn & pj & r & (c & rest & E & A & B) & (c' & rest' & E' & A' & B') & (c2 & r2 & E2 & A2) & H).
  injection E as <- <-. injection E' as <- <-. injection E2 as <- <-. cbn in *. destruct pn, pj. cbn in *. congruence.
Qed.
Lemma ed_exceeds y x rad ell gau y' x' rad' ell' gau' : (ell' < ell)%Q -> (gau' < gau)%Q ->
  exceeds (ed y x rad ell gau) (ed y' x' rad' ell' gau').
Proof. intros H1 H2. do 8 eexists. repeat split; try reflexivity; assumption. Qed.
Definition e1 := ed 0 0 200 (9 # 10) (9 # 10).
Definition e2 := ed 20 30 200 (9 # 10) (8 # 10).
(** close to e1, with lower / higher columns than e1 *)
Definition e1' := ed (1 # 2) 0 200 (8 # 10) (8 # 10).
Definition e1'' := ed (1 # 4) 0 200 1 1.
Definition e3 := ed 40 7 100 1 1.
Ltac eddies_ok := repeat first [apply ed_ok | constructor].
Ltac Qdec := unfold demo_hav; vm_compute; reflexivity.

(** C14: whatever the levels contain, a scan that returns gives the identifiers 0..n-1, sorted rows, complete contours, and
    rows that come from the levels.  (This is what the tracking theorems assume of a snapshot.) *)
Theorem C14_snapshot_shape :
  forall query keep levels R, Forall (Forall eddy_ok) levels -> scan query keep levels = Ok R ->
  snapshot_ok R /\ sorted_table (rows R) /\
  forall r, In r (rows R) -> exists N e, In N levels /\ In e N /\ In (with_id r 0) (contour_rows 0 e).
Proof. exact C14_shape_lemma. Qed.
Print Assumptions C14_snapshot_shape.
Example C14_shape_case : Forall (Forall eddy_ok) [[e1; e2]; []; [e1'; e3]] /\
  exists R, scan demo_query true [[e1; e2]; []; [e1'; e3]] = Ok R /\
    map (fun r => (r_id r, r_idx r)) (rows R) = [(0, 0); (0, 1); (1, 0); (1, 1); (2, 0); (2, 1)].
Proof. split; [eddies_ok|]. eexists. split; [vm_compute; reflexivity|reflexivity]. Qed.

(** C14: whatever the levels contain, the rows of a scan that returns are whole contours: of each eddy found at a level either all contour points are in the
    table, under one identifier, or none, and no eddy is there twice. *)
Theorem C14_eddies_stay_whole :
  forall query keep levels R, scan query keep levels = Ok R ->
  exists chosen rest, Permutation (rows R) (flat_map (fun p => contour_rows (fst p) (snd p)) chosen) /\
    Permutation (List.concat levels) (map snd chosen ++ rest).
Proof. exact scan_whole. Qed.
Print Assumptions C14_eddies_stay_whole.
(** Two levels where one eddy is replaced; and two eddies that end up under one identifier (see C15): both are whole. *)
Example C14_whole_case :
  (exists R, scan demo_query true [[e1; e2]; []; [e1'; e3]] = Ok R /\ Permutation (rows R) (flat_map (fun p => contour_rows (fst p) (snd p)) [(0, e1'); (1, e2); (2, e3)])) /\
  (exists R, scan demo_query true [[ed 0 0 200 (1#2) (1#2)]; [ed 0 0 200 (1#4) (1#4); ed 0 0 200 (1#4) (1#5)]] = Ok R /\
     Permutation (rows R) (flat_map (fun p => contour_rows (fst p) (snd p)) [(0, ed 0 0 200 (1#4) (1#4)); (0, ed 0 0 200 (1#4) (1#5))])).
Proof.
  split.
  - eexists. split; [vm_compute; reflexivity|]. apply Permutation_refl.
  - eexists. split; [vm_compute; reflexivity|]. cbn. repeat (try apply Permutation_refl; apply perm_skip || (eapply perm_trans; [apply perm_swap|apply perm_skip])).
Qed.

(** C14: if no two eddies of a level lie within their radius of one eddy of the earlier levels, the scan returns, and its
    table is the table of the list of eddies the specification describes: each identifier is one eddy, whole. *)
Theorem C14_levels_merged_as_specified :
  forall hav query, query_ok hav query -> forall keep levels,
  Forall (Forall eddy_ok) levels -> safe hav [] levels ->
  exists R E, scan query keep levels = Ok R /\ scanned hav [] levels E /\ rows R = table E /\ distinct_eddies R.
Proof.
  intros hav query Hq keep levels H1 H2. destruct (C14_lemma hav query Hq keep levels H1 H2) as (R & E & A & B & C).
  exists R, E. split; [exact A|]. split; [exact B|]. split; [exact C|]. exists (length E). rewrite C.
  assert (HE : Forall eddy_ok E) by (eapply scanned_ok; [|exact H1|exact B]; constructor).
  rewrite table_enum, blocks_first. change (map Z.of_nat (seq 0 (length E))) with (zseq (length E)). rewrite <- (enum_fst E). unfold firsts.
  assert (Hne : forall p, In p (enum E) -> snd p <> []) by (apply enum_nonempty, ok_ne, HE).
  induction (enum E) as [|[k e] ps IH]; [reflexivity|]. cbn [flat_map map fst snd]. rewrite map_app, IH by (intros p Hp; apply Hne; right; exact Hp).
  destruct e as [|c e]; [exfalso; apply (Hne (k, []) (or_introl eq_refl)); reflexivity|reflexivity].
Qed.
Print Assumptions C14_levels_merged_as_specified.
Lemma merged_nil_inv hav N J : merged hav [] N J -> J = N.
Proof.
  intros (link & kept & A & B & C & D & ->). destruct kept; [|discriminate]. cbn [app].
  assert (H : forall d n, nth_error N d = Some n -> link d = None).
  { intros d n Hn. destruct (link d) as [k|] eqn:E; [|reflexivity]. destruct (A d n k Hn E) as (j & Hj & _). destruct k; discriminate. }
  rewrite filter_true; [apply combine_seq_snd|]. intros [d n] Hd. cbn. apply combine_seq_In in Hd. rewrite Nat.sub_0_r in Hd. rewrite (H d n) by tauto. reflexivity.
Qed.
Example C14_case : Forall (Forall eddy_ok) [[e1; e2]; [e1'; e3]] /\ safe demo_hav [] [[e1; e2]; [e1'; e3]] /\
  exists R, scan demo_query false [[e1; e2]; [e1'; e3]] = Ok R /\ rows R = table [e1'; e2; e3].
Proof.
  split; [eddies_ok|]. split.
  - cbn. split; [intros d d' n n' k j _ _ _ H; destruct k; discriminate|]. intros J HJ. apply merged_nil_inv in HJ. subst J. split; [|auto].
    intros d d' n n' k j Hne H1 H2 Hk N1 N2.
    destruct d as [|[|d]], d' as [|[|d']], k as [|[|k]]; cbn in H1, H2, Hk; try congruence; try (destruct d; discriminate); try (destruct d'; discriminate); try (destruct k; discriminate);
    injection H1 as <-; injection H2 as <-; injection Hk as <-; apply ed_far in N1; apply ed_far in N2;
    first [vm_compute in N1; discriminate|vm_compute in N2; discriminate].
  - eexists. split; [vm_compute; reflexivity|]. vm_compute. reflexivity.
Qed.

(** C15 is false: when two eddies of a level both lie within their radius of the only earlier eddy, and both have lower
    columns, all their contour points are stored under identifier 0. *)
Theorem C15_never_fused_refuted :
  forall hav query, query_ok hav query -> forall keep j n1 n2,
  eddy_ok j -> eddy_ok n1 -> eddy_ok n2 -> near hav n1 j -> near hav n2 j -> exceeds j n1 -> exceeds j n2 ->
  exists R, scan query keep [[j]; [n1; n2]] = Ok R /\ Permutation (rows R) (contour_rows 0 n1 ++ contour_rows 0 n2).
Proof. exact fuse_lemma. Qed.
Print Assumptions C15_never_fused_refuted.
(** ... and then any further level with an eddy close to the first of them makes the detection raise. *)
Theorem C15_next_level_raises_refuted :
  forall hav query, query_ok hav query -> forall keep j n1 n2,
  eddy_ok j -> eddy_ok n1 -> eddy_ok n2 -> near hav n1 j -> near hav n2 j -> exceeds j n1 -> exceeds j n2 ->
  forall m, eddy_ok m -> near hav m n1 ->
  exists e, scan query keep [[j]; [n1; n2]; [m]] = Err e.
Proof. exact fuse_crash. Qed.
Print Assumptions C15_next_level_raises_refuted.
Definition e1b := ed 0 1 200 (7 # 10) (7 # 10).
Example C15_case : eddy_ok e1 /\ eddy_ok e1' /\ eddy_ok e1b /\ near demo_hav e1' e1 /\ near demo_hav e1b e1 /\ exceeds e1 e1' /\ exceeds e1 e1b /\
  near demo_hav e1'' e1' /\
  exists R, scan demo_query true [[e1]; [e1'; e1b]] = Ok R /\ map r_id (rows R) = [0; 0; 0; 0] /\
  scan demo_query true [[e1]; [e1'; e1b]; [e1'']] = Err ValueError.
Proof.
  repeat (split; [first [apply ed_ok|apply ed_near; Qdec|apply ed_exceeds; reflexivity]|]).
  eexists. split; [vm_compute; reflexivity|]. split; vm_compute; reflexivity.
Qed.

(** C16 is false, the opposite holds: when the later detection n lies within its radius of the earlier j, it replaces j
    exactly when both its similarity columns are lower. *)
Theorem C16_better_fit_kept_refuted :
  forall hav query, query_ok hav query -> forall keep j n, eddy_ok j -> eddy_ok n -> near hav n j ->
  exists R, scan query keep [[j]; [n]] = Ok R /\
    (exceeds n j -> rows R = table [j]) /\ (exceeds j n -> rows R = table [n]).
Proof.
  intros hav query Hq keep j n Hj Hn H. destruct (C16_lemma hav query Hq keep j n Hj Hn H) as (R & A & B & C).
  exists R. split; [exact A|]. split; [|exact B]. intro He. apply C. intro He'.
  destruct He as (c & r & c' & r' & a & b & a' & b' & -> & -> & X1 & X2 & X3 & _).
  destruct He' as (d & s & d' & s' & u & v & u' & v' & E1 & E2 & Y1 & Y2 & Y3 & _).
  injection E1 as <- <-. injection E2 as <- <-. rewrite X1 in Y2. rewrite X2 in Y1. injection Y2 as <-. injection Y1 as <-.
  apply (Qlt_irrefl a). apply Qlt_trans with a'; assumption.
Qed.
Print Assumptions C16_better_fit_kept_refuted.
(** Also: when the columns do not order the two detections (in particular with skip_gaussian_fit, which leaves the Gaussian
    column 0 for both), the earlier one is kept, however good the later one is. *)
Theorem C16_earlier_kept_without_gaussian :
  forall hav query, query_ok hav query -> forall keep j n, eddy_ok j -> eddy_ok n -> near hav n j ->
  (forall c, In c j \/ In c n -> contour_gaussian_error c = Num 0) ->
  exists R, scan query keep [[j]; [n]] = Ok R /\ rows R = table [j].
Proof.
  intros hav query Hq keep j n Hj Hn H Hz. destruct (C16_lemma hav query Hq keep j n Hj Hn H) as (R & A & B & C).
  exists R. split; [exact A|]. apply C. intros (c & r & c' & r' & a & b & a' & b' & -> & -> & _ & _ & _ & X1 & X2 & X3).
  rewrite Hz in X1 by (left; left; reflexivity). rewrite Hz in X2 by (right; left; reflexivity). injection X1 as <-. injection X2 as <-. discriminate.
Qed.
Print Assumptions C16_earlier_kept_without_gaussian.
Example C16_case : near demo_hav e1'' e1 /\ exceeds e1'' e1 /\
  (exists R, scan demo_query true [[e1]; [e1'']] = Ok R /\ rows R = table [e1]) /\
  near demo_hav e1' e1 /\ exceeds e1 e1' /\ (exists R, scan demo_query true [[e1]; [e1']] = Ok R /\ rows R = table [e1']) /\
  (exists R, scan demo_query true [[ed 0 0 200 (5#10) 0]; [ed 0 0 200 1 0]] = Ok R /\ rows R = table [ed 0 0 200 (5#10) 0]).
Proof.
  split; [apply ed_near; Qdec|]. split; [apply ed_exceeds; reflexivity|]. split; [eexists; split; vm_compute; reflexivity|].
  split; [apply ed_near; Qdec|]. split; [apply ed_exceeds; reflexivity|]. split; eexists; split; vm_compute; reflexivity.
Qed.

(** C17: merging a further level N into the eddies J found so far: every place of J keeps its eddy or receives an eddy of N
    that lies within its own radius of it; an eddy of N is appended exactly when no eddy of J lies within its radius. *)
Theorem C17_only_coinciding_replaced :
  forall hav query, query_ok hav query -> forall keep levels N,
  Forall (Forall eddy_ok) levels -> Forall eddy_ok N -> safe hav [] (levels ++ [N]) ->
  exists J E RJ RE (stays : nat -> bool) kept,
    scan query keep levels = Ok RJ /\ rows RJ = table J /\
    scan query keep (levels ++ [N]) = Ok RE /\ rows RE = table E /\
    length kept = length J /\
    E = kept ++ map snd (filter (fun dn => stays (fst dn)) (combine (seq 0 (length N)) N)) /\
    (forall k j, nth_error J k = Some j ->
       nth_error kept k = Some j \/ exists d n, nth_error N d = Some n /\ near hav n j /\ nth_error kept k = Some n) /\
    (forall d n, nth_error N d = Some n -> (stays d = true <-> forall j, In j J -> ~ near hav n j)).
Proof. exact C17_lemma. Qed.
Print Assumptions C17_only_coinciding_replaced.
Example C17_case : safe demo_hav [] ([[e1; e2]] ++ [[e1'; e3]]) /\
  exists RJ RE, scan demo_query true [[e1; e2]] = Ok RJ /\ rows RJ = table [e1; e2] /\
    scan demo_query true ([[e1; e2]] ++ [[e1'; e3]]) = Ok RE /\ rows RE = table ([e1'; e2] ++ [e3]).
Proof.
  split; [apply C14_case|]. do 2 eexists. split; [vm_compute; reflexivity|]. split; [reflexivity|].
  split; [vm_compute; reflexivity|]. vm_compute. reflexivity.
Qed.

(** C01 - C11: time_tracking.  [hav] is the distance (haversine, in radians) and [query] the nearest-neighbour search
    (sklearn BallTree), of which only [query_ok] is assumed; [keep] tells whether pandas keeps unused index labels when
    tables are concatenated; [detect t] is the result of analysing snapshot t. *)
From Verif Require Import M_Base M_Tables S_Tracking L_Base L_TrackProps L_Witness.
From Coq Require Import Sorting.Permutation.
Open Scope Z_scope.

(** C01: analysing more time steps never changes what was reported for the earlier ones. *)
Theorem C01_track_ids_never_change :
  forall hav query, query_ok hav query -> forall keep detect fmt len t0 tf1 tf2 nt R2,
  0 <= t0 -> 0 < tf1 -> t0 <= tf1 <= tf2 -> snapshots_ok detect t0 tf2 ->
  returns (time_tracking query keep detect true fmt len t0 (Some tf2) nt) R2 ->
  exists R1 new, returns (time_tracking query keep detect true fmt len t0 (Some tf1) nt) R1 /\
    Permutation (rows R2) (rows R1 ++ new) /\ forall r, In r new -> tf1 <= r_time r < tf2.
Proof. exact C01_lemma. Qed.
Print Assumptions C01_track_ids_never_change.
Example C01_case : query_ok demo_hav demo_query /\ snapshots_ok demo 0 3 /\
  exists R, returns (time_tracking demo_query false demo true "csv" 3 0 (Some 3) 1) R /\
    labels R = [(0, 0); (0, 1); (0, 2); (1, 0); (1, 1); (1, 2); (2, 2)].
Proof.
  split; [exact demo_ok|split; [apply demo_ok_all|]].
  eexists; split; [vm_compute; reflexivity|vm_compute; reflexivity].
Qed.

(** C02: the table contains every detected row exactly once, with its time, whatever identifier it got. *)
Theorem C02_online_rows_conserved :
  forall hav query, query_ok hav query -> forall keep detect fmt len t0 tf nt R,
  tf <> 0 -> snapshots_ok detect t0 tf ->
  returns (time_tracking query keep detect true fmt len t0 (Some tf) nt) R ->
  exists lab : Z -> Z -> Z,
    Permutation (rows R)
      (flat_map (fun t => map (fun r => with_id (at_time t r) (lab t (r_id r))) (found detect t)) (steps t0 tf)).
Proof. exact C02_lemma. Qed.
Print Assumptions C02_online_rows_conserved.
Example C02_case : snapshots_ok demo 0 4 /\ (forall t, 0 <= t < 4 -> found demo t <> []) /\
  exists R, returns (time_tracking demo_query true demo true "csv" 4 0 (Some 4) 2) R /\ length (rows R) = 9%nat.
Proof.
  split; [apply demo_ok_all|]. split; [intros t Ht; discriminate|].
  eexists; split; [vm_compute; reflexivity|vm_compute; reflexivity].
Qed.

(** C03: identifiers of the returned table are exactly 0 .. n-1, in the rows and in the index. *)
Theorem C03_track_ids_contiguous :
  forall hav query, query_ok hav query -> forall keep detect fmt len t0 tf nt R,
  tf <> 0 -> snapshots_ok detect t0 tf ->
  returns (time_tracking query keep detect true fmt len t0 (Some tf) nt) R ->
  exists n, contiguous (rows R) n /\ ids R = map Z.of_nat (seq 0 n).
Proof. exact C03_lemma. Qed.
Print Assumptions C03_track_ids_contiguous.
Example C03_case : exists R, returns (time_tracking demo_query false demo true "csv" 4 0 (Some 4) 2) R /\ ids R = [0; 1; 2].
Proof. eexists; split; [vm_compute; reflexivity|vm_compute; reflexivity]. Qed.

(** C04: the returned table is sorted by identifier, time and contour index. *)
Theorem C04_table_sorted :
  forall hav query, query_ok hav query -> forall keep detect fmt len t0 tf nt R,
  tf <> 0 -> snapshots_ok detect t0 tf ->
  returns (time_tracking query keep detect true fmt len t0 (Some tf) nt) R -> sorted_table (rows R).
Proof. exact C04_lemma. Qed.
Print Assumptions C04_table_sorted.
Example C04_case : exists R, returns (time_tracking demo_query false demo true "csv" 3 0 (Some 3) 1) R /\
  labels R = [(0, 0); (0, 1); (0, 2); (1, 0); (1, 1); (1, 2); (2, 2)].
Proof. eexists; split; [vm_compute; reflexivity|vm_compute; reflexivity]. Qed.

(** C05: at each step an eddy joins the nearest known track if that track's latest position is within the eddy's radius,
    and starts a new track otherwise; new tracks are numbered after the old ones in the order of the snapshot. *)
Theorem C05_link_iff_nearest_within_radius :
  forall hav query, query_ok hav query -> forall keep detect fmt len t0 t nt T R f,
  0 <= t0 < t -> snapshots_ok detect t0 (t + 1) ->
  returns (time_tracking query keep detect true fmt len t0 (Some t) nt) T ->
  returns (time_tracking query keep detect true fmt len t0 (Some (t + 1)) nt) R ->
  rows T <> [] -> detect t = Ok f -> rows f <> [] -> distinct_eddies f ->
  exists (n : nat) (pos : Z -> Q * Q) (g : Z -> Z),
    contiguous (rows T) n /\
    (forall k, 0 <= k < Z.of_nat n -> latest_position (rows T) k (pos k)) /\
    Permutation (rows R) (rows T ++ map (fun r => with_id (at_time t r) (g (r_id r))) (rows f)) /\
    (forall r c rad, In r (rows f) -> r_idx r = 0 -> position_of r c -> radius_eddy (r_cols r) = Num rad ->
       (exists k, 0 <= k < Z.of_nat n /\ g (r_id r) = k /\ reaches hav c rad (pos k) /\
          forall k', 0 <= k' < Z.of_nat n -> (hav c (pos k) <= hav c (pos k'))%Q)
       \/ (Z.of_nat n <= g (r_id r) /\ forall k, 0 <= k < Z.of_nat n -> ~ reaches hav c rad (pos k))) /\
    (forall r r', In r (rows f) -> In r' (rows f) -> r_id r < r_id r' ->
       Z.of_nat n <= g (r_id r) -> Z.of_nat n <= g (r_id r') -> g (r_id r) < g (r_id r')).
Proof. exact C05_lemma. Qed.
Print Assumptions C05_link_iff_nearest_within_radius.
Example C05_case : snapshots_ok demo 0 3 /\ (exists f, demo 2 = Ok f /\ rows f <> [] /\ distinct_eddies f) /\
  exists T R, returns (time_tracking demo_query false demo true "csv" 3 0 (Some 2) 1) T /\ rows T <> [] /\
    returns (time_tracking demo_query false demo true "csv" 3 0 (Some (2 + 1)) 1) R /\
    filter (fun p => snd p =? 2) (labels R) = [(0, 2); (1, 2); (2, 2)].
Proof.
  split; [apply demo_ok_all|]. split; [eexists; split; [reflexivity|split; [discriminate|apply snap_distinct]]|].
  eexists _, _. split; [vm_compute; reflexivity|]. split; [discriminate|]. split; vm_compute; reflexivity.
Qed.

(** C06 is false: two eddies of one snapshot can be given the same track, with whatever distance and search. *)
Theorem C06_one_eddy_per_track_and_time_refuted :
  forall hav query, query_ok hav query -> forall keep fmt len nt, 1 <= nt -> forall a b c : Q * Q,
  exists detect, snapshots_ok detect 0 2 /\
    (exists f, detect 1 = Ok f /\ exists r1 r2, rows f = [r1; r2] /\ r_id r1 <> r_id r2 /\ position_of r1 b /\ position_of r2 c) /\
    exists R r1 r2, returns (time_tracking query keep detect true fmt len 0 (Some 2) nt) R /\
      In r1 (rows R) /\ In r2 (rows R) /\ position_of r1 b /\ position_of r2 c /\
      r_time r1 = 1 /\ r_time r2 = 1 /\ r_id r1 = 0 /\ r_id r2 = 0.
Proof.
  intros hav query Hq keep fmt len nt Hnt a b c.
  exists (fun t => Ok (snap (split_radius hav a b c) (split_history a b c t))). split; [apply snap_fun_ok|]. split.
  - eexists. split; [reflexivity|]. eexists _, _. split; [reflexivity|]. cbn. repeat split; discriminate.
  - destruct (C06_witness hav query Hq keep fmt len a b c nt Hnt) as (R & HR & H1 & H2).
    eexists R, _, _. split; [exact HR|]. split; [exact H1|]. split; [exact H2|]. repeat split.
Qed.
Print Assumptions C06_one_eddy_per_track_and_time_refuted.
(** What does hold: if no two eddies of the snapshot reach the same track they get different identifiers. *)
Theorem C06_distinct_ids_without_collision_partial :
  forall hav query, query_ok hav query -> forall keep detect fmt len t0 t nt T R f,
  0 <= t0 < t -> snapshots_ok detect t0 (t + 1) ->
  returns (time_tracking query keep detect true fmt len t0 (Some t) nt) T ->
  returns (time_tracking query keep detect true fmt len t0 (Some (t + 1)) nt) R ->
  rows T <> [] -> detect t = Ok f -> rows f <> [] -> distinct_eddies f ->
  (forall r, In r (rows f) -> r_idx r = 0 -> exists rad, radius_eddy (r_cols r) = Num rad) ->
  (forall r r' c c' rad rad' k p, In r (rows f) -> In r' (rows f) -> r_idx r = 0 -> r_idx r' = 0 -> r_id r <> r_id r' ->
     position_of r c -> position_of r' c' -> radius_eddy (r_cols r) = Num rad -> radius_eddy (r_cols r') = Num rad' ->
     latest_position (rows T) k p -> reaches hav c rad p -> reaches hav c' rad' p -> False) ->
  exists g : Z -> Z,
    Permutation (rows R) (rows T ++ map (fun r => with_id (at_time t r) (g (r_id r))) (rows f)) /\
    forall r r', In r (rows f) -> In r' (rows f) -> r_id r <> r_id r' -> g (r_id r) <> g (r_id r').
Proof. exact C06_lemma. Qed.
Print Assumptions C06_distinct_ids_without_collision_partial.
(** When two eddies of a step share a track: then one track is the nearest to both and within the radius of both; conversely, two eddies that both reach a track and are
    both closer to it than to any other one share that track. *)
Theorem C06_when_two_eddies_share_a_track :
  forall hav query, query_ok hav query -> forall keep detect fmt len t0 t nt T R f,
  0 <= t0 < t -> snapshots_ok detect t0 (t + 1) ->
  returns (time_tracking query keep detect true fmt len t0 (Some t) nt) T ->
  returns (time_tracking query keep detect true fmt len t0 (Some (t + 1)) nt) R ->
  rows T <> [] -> detect t = Ok f -> rows f <> [] -> distinct_eddies f ->
  exists (n : nat) (pos : Z -> Q * Q) (g : Z -> Z),
    contiguous (rows T) n /\ (forall k, 0 <= k < Z.of_nat n -> latest_position (rows T) k (pos k)) /\
    Permutation (rows R) (rows T ++ map (fun r => with_id (at_time t r) (g (r_id r))) (rows f)) /\
    forall r r' c c' rad rad', In r (rows f) -> In r' (rows f) -> r_idx r = 0 -> r_idx r' = 0 -> r_id r <> r_id r' ->
      position_of r c -> position_of r' c' -> radius_eddy (r_cols r) = Num rad -> radius_eddy (r_cols r') = Num rad' ->
      (g (r_id r) = g (r_id r') ->
       exists k, 0 <= k < Z.of_nat n /\ g (r_id r) = k /\ reaches hav c rad (pos k) /\ reaches hav c' rad' (pos k) /\
         forall k', 0 <= k' < Z.of_nat n -> (hav c (pos k) <= hav c (pos k') /\ hav c' (pos k) <= hav c' (pos k'))%Q) /\
      (forall k, 0 <= k < Z.of_nat n -> reaches hav c rad (pos k) -> reaches hav c' rad' (pos k) ->
         (forall k', 0 <= k' < Z.of_nat n -> k' <> k -> (hav c (pos k) < hav c (pos k') /\ hav c' (pos k) < hav c' (pos k'))%Q) ->
         g (r_id r) = k /\ g (r_id r') = k).
Proof.
  intros hav query Hq keep detect fmt len t0 t nt T R f H0 Hs HT HR HnT Hf Hnf Hd.
  destruct (C05_link_iff_nearest_within_radius hav query Hq keep detect fmt len t0 t nt T R f H0 Hs HT HR HnT Hf Hnf Hd) as (n & pos & g & A & B & C & D & I).
  exists n, pos, g. split; [exact A|]. split; [exact B|]. split; [exact C|].
  intros r r' c c' rad rad' Hr Hr' Z0 Z0' Ne P P' Q Q'. specialize (D r c rad Hr Z0 P Q) as D1. specialize (D r' c' rad' Hr' Z0' P' Q') as D2. split.
  - intro E. destruct D1 as [(k & K & Ek & X & Y)|[X1 Y1]], D2 as [(k' & K' & Ek' & X' & Y')|[X2 Y2]].
    + assert (k' = k) as -> by lia. exists k. split; [exact K|]. split; [exact Ek|]. split; [exact X|]. split; [exact X'|]. intros k0 Hk0. split; [apply Y|apply Y']; exact Hk0.
    + lia. + lia.
    + exfalso. assert (r_id r < r_id r' \/ r_id r' < r_id r) as [L|L] by lia.
      * specialize (I r r' Hr Hr' L X1 X2). lia.
      * specialize (I r' r Hr' Hr L X2 X1). lia.
  - intros k Hk X X' N. destruct D1 as [(k1 & K1 & E1 & U1 & V1)|[_ Y]]; [|exfalso; exact (Y k Hk X)]. destruct D2 as [(k2 & K2 & E2 & U2 & V2)|[_ Y]]; [|exfalso; exact (Y k Hk X')].
    split; [destruct (Z.eq_dec k1 k) as [->|Z1]|destruct (Z.eq_dec k2 k) as [->|Z1]]; auto; exfalso; [specialize (V1 k Hk); destruct (N k1 K1 Z1) as [L _]; apply (Qlt_not_le _ _ L V1)|specialize (V2 k Hk); destruct (N k2 K2 Z1) as [_ L]; apply (Qlt_not_le _ _ L V2)].
Qed.
Print Assumptions C06_when_two_eddies_share_a_track.
Example C06_case : exists T R f,
  returns (time_tracking demo_query false demo true "csv" 3 0 (Some 1) 1) T /\
  returns (time_tracking demo_query false demo true "csv" 3 0 (Some (1 + 1)) 1) R /\
  rows T <> [] /\ demo 1 = Ok f /\ length (rows f) = 2%nat /\ distinct_eddies f /\
  (forall r, In r (rows f) -> r_idx r = 0 -> exists rad, radius_eddy (r_cols r) = Num rad) /\
  (forall r r' c c' rad rad' k p, In r (rows f) -> In r' (rows f) -> r_idx r = 0 -> r_idx r' = 0 -> r_id r <> r_id r' ->
     position_of r c -> position_of r' c' -> radius_eddy (r_cols r) = Num rad -> radius_eddy (r_cols r') = Num rad' ->
     latest_position (rows T) k p -> reaches demo_hav c rad p -> reaches demo_hav c' rad' p -> False).
Proof.
  eexists _, _, _. split; [vm_compute; reflexivity|]. split; [vm_compute; reflexivity|]. split; [discriminate|].
  split; [reflexivity|]. split; [reflexivity|]. split; [apply snap_distinct|]. split.
  - intros r [<-|[<-|[]]] _; eexists; reflexivity.
  - intros r r' c c' rad rad' k p Hr Hr' _ _ Hne [Hy Hx] [Hy' Hx'] Hrad Hrad' (q & Hq & _ & _ & Py & Px & _) H1 H2.
    destruct c as [cy cx], c' as [cy' cx'], p as [py px]. cbn in Hq.
    destruct Hr as [<-|[<-|[]]], Hr' as [<-|[<-|[]]]; try (exfalso; apply Hne; reflexivity);
    destruct Hq as [<-|[<-|[]]]; cbn in *;
    injection Hy as <-; injection Hx as <-; injection Hy' as <-; injection Hx' as <-; injection Hrad as <-; injection Hrad' as <-;
    injection Py as <-; injection Px as <-; first [vm_compute in H1; discriminate|vm_compute in H2; discriminate].
Qed.

(** C07: whenever two runs that differ only in [ntimes] both return, they return the same table ... *)
Theorem C07_ntimes_has_no_effect :
  forall hav query, query_ok hav query -> forall keep detect fmt len t0 tf nt1 nt2 R1 R2,
  tf <> 0 -> snapshots_ok detect t0 tf ->
  returns (time_tracking query keep detect true fmt len t0 (Some tf) nt1) R1 ->
  returns (time_tracking query keep detect true fmt len t0 (Some tf) nt2) R2 -> R1 = R2.
Proof. exact C07_lemma. Qed.
Print Assumptions C07_ntimes_has_no_effect.
Example C07_case : exists R, returns (time_tracking demo_query false demo true "csv" 4 0 (Some 4) 1) R /\
  returns (time_tracking demo_query false demo true "csv" 4 0 (Some 4) 3) R /\ rows R <> [].
Proof. eexists; split; [vm_compute; reflexivity|split; [vm_compute; reflexivity|discriminate]]. Qed.
(** ... so the documented meaning is false: for every [ntimes] and every gap, a track that was absent for the whole gap
    is continued. *)
Theorem C07_ntimes_limits_gap_refuted :
  forall hav query, query_ok hav query -> forall keep fmt len nt gap, 1 <= nt -> 0 <= gap ->
  forall a b : Q * Q, (hav a a < hav a b)%Q -> (hav b b < hav b a)%Q ->
  exists detect R, snapshots_ok detect 0 (gap + 2) /\
    returns (time_tracking query keep detect true fmt len 0 (Some (gap + 2)) nt) R /\
    (exists r, In r (rows R) /\ r_id r = 0 /\ r_time r = 0) /\
    (exists r, In r (rows R) /\ r_id r = 0 /\ r_time r = gap + 1) /\
    (forall r, In r (rows R) -> r_id r = 0 -> ~ 0 < r_time r < gap + 1).
Proof.
  intros hav query Hq keep fmt len nt gap Hnt Hgap a b Ha Hb.
  destruct (C07_witness hav query Hq keep fmt len a b gap nt Hgap Hnt Ha Hb) as (R & HR).
  eexists _, R. split; [apply snap_fun_ok|exact HR].
Qed.
Print Assumptions C07_ntimes_limits_gap_refuted.
Example C07_refuted_case : (demo_hav (0, 0) (0, 0) < demo_hav (0, 0) (0, 50))%Q /\ (demo_hav (0, 50) (0, 50) < demo_hav (0, 50) (0, 0))%Q.
Proof. split; reflexivity. Qed.

(** C08, C09: exactly which runs return a table. *)
Theorem C08_C09_success_condition :
  forall hav query, query_ok hav query -> forall keep detect fmt len t0 tf nt,
  0 <= t0 <= tf -> 0 < tf -> 1 <= nt -> snapshots_ok detect t0 tf ->
  ((exists R, returns (time_tracking query keep detect true fmt len t0 (Some tf) nt) R) <->
   ((forall s t, t0 <= s < t -> t < tf -> eddies_at detect s -> eddies_at detect t -> False) \/
    (t0 = 0 /\ exists m, forall t, 0 <= t < tf -> (eddies_at detect t <-> t < m)))).
Proof. exact success_iff. Qed.
Print Assumptions C08_C09_success_condition.
Example C08_case : snapshots_ok demo 0 3 /\ forall t, 0 <= t < 3 -> (eddies_at demo t <-> t < 3).
Proof.
  split; [apply demo_ok_all|]. intros t Ht. split; [intros _; apply Ht|intros _].
  eexists. split; [reflexivity|discriminate].
Qed.
(** C08 is false: a step without eddies between two steps with eddies always makes the run fail. *)
Theorem C08_empty_step_tolerated_refuted :
  forall hav query, query_ok hav query -> forall keep detect fmt len t0 tf nt s w t R,
  0 <= t0 -> t0 <= s -> s < w < t -> t < tf -> 1 <= nt -> snapshots_ok detect t0 tf ->
  eddies_at detect s -> eddies_at detect t -> ~ eddies_at detect w ->
  ~ returns (time_tracking query keep detect true fmt len t0 (Some tf) nt) R.
Proof. exact gap_fails. Qed.
Print Assumptions C08_empty_step_tolerated_refuted.
Example C08_refuted_case : let d := blink (0, 0)%Q (fun t => negb (t =? 1)) in
  snapshots_ok d 0 3 /\ eddies_at d 0 /\ eddies_at d 2 /\ ~ eddies_at d 1.
Proof. split; [apply blink_ok|]. split; [|split]; rewrite blink_at; [reflexivity|reflexivity|discriminate]. Qed.
(** C09 is false: a run that starts after step 0 fails as soon as two of its steps contain eddies. *)
Theorem C09_start_at_any_step_refuted :
  forall hav query, query_ok hav query -> forall keep detect fmt len t0 tf nt s t R,
  0 < t0 -> t0 <= s < t -> t < tf -> 1 <= nt -> snapshots_ok detect t0 tf ->
  eddies_at detect s -> eddies_at detect t ->
  ~ returns (time_tracking query keep detect true fmt len t0 (Some tf) nt) R.
Proof. exact late_start_fails. Qed.
Print Assumptions C09_start_at_any_step_refuted.
Example C09_refuted_case : snapshots_ok demo 3 5 /\ eddies_at demo 3 /\ eddies_at demo 4.
Proof. split; [apply demo_ok_all|]. split; eexists; (split; [reflexivity|discriminate]). Qed.

(** C10 is false: without [tf] the run returns only if at most one step of the whole file contains eddies (and then
    [t0] is ignored). *)
Theorem C10_tf_omitted_refuted :
  forall hav query, query_ok hav query -> forall keep detect fmt len t0 nt,
  0 <= len -> snapshots_ok detect 0 len ->
  ((exists R, returns (time_tracking query keep detect true fmt len t0 None nt) R) <->
   (forall s t, 0 <= s < t -> t < len -> eddies_at detect s -> eddies_at detect t -> False)).
Proof. exact none_iff. Qed.
Print Assumptions C10_tf_omitted_refuted.
Example C10_case : snapshots_ok demo 0 3 /\ ~ exists R, returns (time_tracking demo_query false demo true "csv" 3 0 None 1) R.
Proof.
  split; [apply demo_ok_all|]. intros (R & H). vm_compute in H. discriminate.
Qed.

(** [tf = 0] does not mean "no step": it returns a table exactly when leaving [tf] out does, and the same one. *)
Theorem C10_tf_zero_is_tf_omitted :
  forall query keep detect online fmt len t0 nt R,
  returns (time_tracking query keep detect online fmt len t0 (Some 0) nt) R <->
  returns (time_tracking query keep detect online fmt len t0 None nt) R.
Proof.
  intros query keep detect online fmt len t0 nt R. unfold time_tracking.
  change (tt_times len t0 (Some 0)) with (tt_times len t0 None). generalize (tt_times len t0 None) empty_frame (@nil (Z * frame)).
  unfold returns. induction l as [|t l IH]; intros track files; [reflexivity|]. cbn [tt_loop].
  destruct (detect t) as [cur|e]; [|reflexivity]. destruct (empty cur); [apply IH|]. destruct (empty track); [apply IH|].
  destruct online.
  - destruct (track_online _ _ _ _ _ _); cbn [print_check Z.eqb orb snd]; [|reflexivity]. split; discriminate.
  - destruct (store_effect fmt); cbn [print_check Z.eqb orb snd]; [|reflexivity]. split; discriminate.
Qed.
Print Assumptions C10_tf_zero_is_tf_omitted.
Example C10_zero_case : let d := blink (0, 0)%Q (fun t => t =? 1) in
  exists R, returns (time_tracking demo_query false d true "csv" 3 0 (Some 0) 1) R /\ map r_time (rows R) = [1].
Proof. eexists. split; [vm_compute; reflexivity|reflexivity]. Qed.

(** C11 is false: offline, the first snapshot with eddies is never written; every later one is, in order, and the
    returned table holds only the first. *)
Theorem C11_offline_writes_every_snapshot_refuted :
  forall query keep detect fmt len t0 tf nt f0 s,
  0 <= t0 -> 0 < tf -> (fmt = "csv" \/ fmt = "json")%string ->
  (forall t, t0 <= t < tf -> exists f, detect t = Ok f) ->
  t0 <= s < tf -> detect s = Ok f0 -> rows f0 <> [] -> (forall t, t0 <= t < s -> found detect t = []) ->
  exists files T, time_tracking query keep detect false fmt len t0 (Some tf) nt = (files, Ok T) /\
    map (fun p => (fst p, rows (snd p))) files =
      flat_map (fun t => match found detect t with [] => [] | l => [(t, map (at_time t) l)] end) (steps (s + 1) tf) /\
    Permutation (rows T) (map (at_time s) (rows f0)).
Proof. exact offline_files_fmt. Qed.
Print Assumptions C11_offline_writes_every_snapshot_refuted.
Example C11_case : map fst (fst (time_tracking demo_query false demo false "csv" 3 0 (Some 3) 1)) = [1; 2].
Proof. vm_compute. reflexivity. Qed.

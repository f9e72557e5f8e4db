(** C12, C13: storing snapshots. *)
From Coq Require Import ZifyBool Lia.
From Verif Require Import M_Base M_Tables M_Store S_Tracking L_Base L_TrackProps L_Store L_Witness.
Open Scope Z_scope.

(** C12: different time steps (of any sign and size) get different file names. *)
Theorem C12_file_names_distinct : forall path fmt t t',
  snapshot_path path t fmt = snapshot_path path t' fmt -> t = t'.
Proof. intros path fmt t t'. apply path_inj. Qed.
Print Assumptions C12_file_names_distinct.
(** Below 100000 the alphabetical order of the names is the chronological order. *)
Theorem C12_alphabetical_is_chronological : forall fmt t t', 0 <= t < 100000 -> 0 <= t' < 100000 ->
  String.compare (snapshot_name t fmt) (snapshot_name t' fmt) = (t ?= t').
Proof. intros fmt t t'. apply name_compare. Qed.
Print Assumptions C12_alphabetical_is_chronological.
(** So snapshots of different times, stored one after the other, are all there at the end, and no other file changed. *)
Theorem C12_every_snapshot_is_kept : forall (A : Type) path fmt, (fmt = "csv" \/ fmt = "json")%string ->
  forall (snaps : list (Z * A)) (fs : filesystem A), NoDup (map fst snaps) ->
  exists fs', store_all fs path fmt snaps = Ok fs' /\
    (forall t a, In (t, a) snaps -> fs' (snapshot_path path t fmt) = Some a) /\
    (forall q, (forall t, In t (map fst snaps) -> q <> snapshot_path path t fmt) -> fs' q = fs q).
Proof. intros A path fmt. apply store_all_ok. Qed.
Print Assumptions C12_every_snapshot_is_kept.
(** The files of an offline run of time_tracking have pairwise different times, so the previous theorem applies. *)
Theorem C12_offline_run_never_overwrites :
  forall query keep detect fmt len t0 tf nt,
  0 < tf -> 
  NoDup (map fst (fst (time_tracking query keep detect false fmt len t0 (Some tf) nt))).
Proof.
  intros query keep detect fmt len t0 tf nt Htf. unfold time_tracking, tt_times. destruct (tf =? 0) eqn:E0; [lia|].
  assert (H : forall times track files, NoDup (map fst files ++ times) ->
    NoDup (map fst (fst (tt_loop query keep detect false fmt (Some tf) nt times track files)))).
  { induction times as [|t times IH]; intros track files Hnd; cbn [tt_loop].
    - rewrite app_nil_r in Hnd. exact Hnd.
    - assert (Hd : NoDup (map fst files)) by (eapply NoDup_app_l; exact Hnd).
      destruct (detect t) as [cur|]; [|exact Hd].
      assert (Hrest : NoDup (map fst files ++ times)) by (eapply NoDup_remove_1; exact Hnd).
      destruct (empty cur); [apply IH; exact Hrest|]. destruct (empty track); [apply IH; exact Hrest|].
      destruct (store_effect fmt) as [[]|]; [| |exact Hd].
      + assert (Hnd2 : NoDup (map fst (files ++ [(t, stamp t cur)]) ++ times)) by (rewrite map_app, <- app_assoc; exact Hnd).
        destruct (print_check (Some tf) t); [apply IH; exact Hnd2|]. cbn [fst]. eapply NoDup_app_l; exact Hnd2.
      + destruct (print_check (Some tf) t); [apply IH; exact Hrest|exact Hd]. }
  apply H. cbn [map app]. unfold zrange. apply FinFun.Injective_map_NoDup; [|apply seq_NoDup]. intros a b Hab. lia.
Qed.
Print Assumptions C12_offline_run_never_overwrites.
Example C12_case :
  snapshot_path "/data" 7 "csv" = "/data/identified_eddies_00007.csv"%string /\
  snapshot_path "/data/" 123456 "json" = "/data/identified_eddies_123456.json"%string /\
  snapshot_name (-3) "csv" = "identified_eddies_-0003.csv"%string /\
  String.compare (snapshot_name 9 "csv") (snapshot_name 10 "csv") = Lt /\
  map fst (fst (time_tracking demo_query false demo false "csv" 4 0 (Some 4) 1)) = [1; 2; 3].
Proof. repeat split; vm_compute; reflexivity. Qed.
(** From 100000 on the alphabetical order is lost (so the bound is sharp). *)
Theorem C12_order_bound_is_sharp :
  String.compare (snapshot_name 100000 "csv") (snapshot_name 99999 "csv") = Lt.
Proof. vm_compute. reflexivity. Qed.
Print Assumptions C12_order_bound_is_sharp.

(** C13 is false: with any format other than csv, json and hd5 nothing is written and nothing is raised. *)
Theorem C13_unsupported_format_reported_refuted : forall (A : Type) (fs : filesystem A) tab path t fmt,
  (fmt <> "csv" -> fmt <> "json" -> fmt <> "hd5" ->
  store_snapshot fs tab path t fmt = Ok fs)%string.
Proof.
  intros A fs tab path t fmt H1 H2 H3. unfold store_snapshot.
  destruct (String.eqb_spec fmt "csv"); [contradiction|]. destruct (String.eqb_spec fmt "json"); [contradiction|].
  destruct (String.eqb_spec fmt "hd5"); [contradiction|reflexivity].
Qed.
Print Assumptions C13_unsupported_format_reported_refuted.
(** The effect of storing in the model of a run ([store_effect]) is that of the model of [store_snapshot]. *)
Theorem C13_storing_in_a_run : forall (A : Type) (fs : filesystem A) tab path t fmt,
  store_snapshot fs tab path t fmt = match store_effect fmt with Ok true => Ok (write fs (snapshot_path path t fmt) tab) | Ok false => Ok fs | Err e => Err e end.
Proof. intros A fs tab path t fmt. unfold store_snapshot, store_effect. destruct (String.eqb fmt "csv"), (String.eqb fmt "json"), (String.eqb fmt "hd5"); reflexivity. Qed.
Print Assumptions C13_storing_in_a_run.
(** So a whole offline run with such a format writes no file and ends as a run with csv ends: with the same table or the same exception. *)
Theorem C13_run_with_unsupported_format_refuted : forall query keep detect fmt len t0 tf nt, (fmt <> "csv" -> fmt <> "json" -> fmt <> "hd5" ->
  fst (time_tracking query keep detect false fmt len t0 tf nt) = [] /\
  snd (time_tracking query keep detect false fmt len t0 tf nt) = snd (time_tracking query keep detect false "csv" len t0 tf nt))%string.
Proof.
  intros query keep detect fmt len t0 tf nt H1 H2 H3. unfold time_tracking. assert (E : store_effect fmt = Ok false).
  { unfold store_effect. destruct (String.eqb_spec fmt "csv"); [contradiction|]. destruct (String.eqb_spec fmt "json"); [contradiction|]. destruct (String.eqb_spec fmt "hd5"); [contradiction|reflexivity]. }
  generalize (tt_times len t0 tf). intro times. generalize empty_frame at 1 2 3. intro track. 
  enough (G : forall times track files files', fst (tt_loop query keep detect false fmt tf nt times track files) = files /\
    snd (tt_loop query keep detect false fmt tf nt times track files) = snd (tt_loop query keep detect false "csv" tf nt times track files')) by apply G.
  clear times track. induction times as [|t times IH]; intros track files files'; cbn [tt_loop]; [split; reflexivity|].
  destruct (detect t) as [cur|]; [|split; reflexivity]. destruct (empty cur); [apply IH|]. destruct (empty track); [apply IH|]. rewrite E. cbn [store_effect String.eqb Ascii.eqb Bool.eqb orb]. cbv zeta.
  destruct (print_check tf t); [apply IH|split; reflexivity].
Qed.
Print Assumptions C13_run_with_unsupported_format_refuted.
(** What does hold: csv and json are written; hd5 raises. *)
Theorem C13_supported_formats_partial : forall (A : Type) (fs : filesystem A) tab path t fmt,
  ((fmt = "csv" \/ fmt = "json") ->
     exists fs', store_snapshot fs tab path t fmt = Ok fs' /\ fs' (snapshot_path path t fmt) = Some tab /\
       forall q, q <> snapshot_path path t fmt -> fs' q = fs q)%string /\
  (fmt = "hd5"%string -> store_snapshot fs tab path t fmt = Err TypeError).
Proof.
  intros A fs tab path t fmt. split.
  - intro H. exists (write fs (snapshot_path path t fmt) tab). split; [unfold store_snapshot; destruct H as [-> | ->]; reflexivity|].
    split; [apply write_same|]. intros q Hq. apply write_other. exact Hq.
  - intros ->. reflexivity.
Qed.
Print Assumptions C13_supported_formats_partial.
Example C13_run_case : ("netcdf" <> "csv" /\ "netcdf" <> "json" /\ "netcdf" <> "hd5")%string /\ fst (time_tracking demo_query false demo false "csv" 4 0 (Some 4) 1) <> [] /\ fst (time_tracking demo_query false demo false "netcdf" 4 0 (Some 4) 1) = [].
Proof. split; [repeat split; discriminate|]. split; [vm_compute; discriminate|vm_compute; reflexivity]. Qed.
Example C13_case : store_snapshot (fun _ => None) 5 "/data" 3 "netcdf" = Ok (fun _ => @None Z) /\
  exists fs, store_snapshot (fun _ => None) 5 "/data" 3 "csv" = Ok fs /\ fs "/data/identified_eddies_00003.csv"%string = Some 5.
Proof. split; [reflexivity|]. eexists. split; reflexivity. Qed.

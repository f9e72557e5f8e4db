(** Lemmas about Eddy.to_dict and the tables built from it. *)
From Coq Require Import Lia.
From Verif Require Import M_Base M_Tables M_Area M_Eddy M_Detect S_Tracking S_Levels S_Detect L_Base.
Open Scope Z_scope.

Lemma flatten_nth c i p : nth_error c i = Some p ->
  nth_error (flatten c) (i * 2 + 0) = Some (VNum (fst p)) /\ nth_error (flatten c) (i * 2 + 1) = Some (VNum (snd p)).
Proof.
  revert i. induction c as [|q c IH]; intros [|i] H; cbn in H; try discriminate.
  - injection H as ->. split; reflexivity.
  - destruct (IH i H) as [A B]. split; assumption.
Qed.
Lemma sequence_seq {A B} (f : nat -> option B) (g : A -> B) (l : list A) : forall s,
  (forall i a, nth_error l i = Some a -> f (s + i)%nat = Some (g a)) ->
  sequence (map f (seq s (length l))) = Some (map g l).
Proof.
  induction l as [|a l IH]; intros s H; [reflexivity|]. cbn [length seq map sequence].
  assert (Ha := H 0%nat a eq_refl). rewrite Nat.add_0_r in Ha. rewrite Ha.
  rewrite (IH (S s)); [reflexivity|]. intros i b Hb. rewrite <- (H (S i) b Hb). f_equal. lia.
Qed.
Lemma column_contour c j : column (mkArr [length c; 2%nat] (flatten c)) j =
  match j with
  | 0%nat => Ok (CVec (map (fun p => VNum (fst p)) c))
  | 1%nat => Ok (CVec (map (fun p => VNum (snd p)) c))
  | _ => Err IndexError
  end.
Proof.
  unfold column. cbn [shape data]. destruct j as [|[|j]]; cbn [Nat.ltb Nat.leb]; [| |reflexivity].
  - rewrite (sequence_seq _ (fun p => VNum (fst p))); [reflexivity|]. intros i p H. apply (flatten_nth c i p H).
  - rewrite (sequence_seq _ (fun p => VNum (snd p))); [reflexivity|]. intros i p H. apply (flatten_nth c i p H).
Qed.

(** An eddy object as it is when [store] is called. *)
Definition final_obj (c : contour) (lvl ar rad a b th err ecc cx cy sgn v y x : num) (gp : arr) (gerr : num) : eddy_obj :=
  mkEddy (mkArr [length c; 2%nat] (flatten c)) (scalar (VNum lvl)) (scalar (VNum ar)) (scalar (VNum rad)) (vector [a; b; th])
    (scalar (VNum err)) (scalar (VNum ecc)) (vector [cx; cy]) (scalar (VNum sgn)) (mkArr [3%nat; 1%nat] (map VNum [v; y; x])) gp
    (scalar (VNum gerr)).

Lemma put_any property c d : (2 <= length c)%nat ->
  put_property property (mkArr [length c; 2%nat] (flatten c)) d =
  Ok (dset "contour_path_y" (CVec (map (fun p => VNum (snd p)) c)) (dset "contour_path_x" (CVec (map (fun p => VNum (fst p)) c)) d)).
Proof.
  intro H. unfold put_property, squeeze. cbn [shape filter data].
  assert (negb (length c =? 1)%nat = true) as -> by (apply negb_true_iff, Nat.eqb_neq; lia). cbn [negb Nat.eqb].
  cbn [length Nat.eqb existsb orb]. rewrite orb_true_r. cbn [andb].
  rewrite !column_contour. reflexivity.
Qed.
Lemma put_contour c d : (2 <= length c)%nat ->
  put_property "contour" (mkArr [length c; 2%nat] (flatten c)) d =
  Ok (dset "contour_path_y" (CVec (map (fun p => VNum (snd p)) c)) (dset "contour_path_x" (CVec (map (fun p => VNum (fst p)) c)) d)).
Proof.
  intro H. unfold put_property, squeeze. cbn [shape filter data].
  assert (negb (length c =? 1)%nat = true) as -> by (apply negb_true_iff, Nat.eqb_neq; lia). cbn [negb Nat.eqb].
  assert (Hs : mkArr [length c; 2%nat] (data (mkArr [length c; 2%nat] (flatten c))) = mkArr [length c; 2%nat] (flatten c)) by reflexivity.
  cbn [length Nat.eqb existsb orb]. rewrite orb_true_r. cbn [andb].
  rewrite !column_contour. reflexivity.
Qed.

Lemma to_dict_step ats p ps d : fold_left (fun rd p => do d <- rd; put_property p (ats p) d) (p :: ps) (Ok d) =
  fold_left (fun rd p => do d <- rd; put_property p (ats p) d) ps (put_property p (ats p) d).
Proof. reflexivity. Qed.

Lemma final_to_dict id c lvl ar rad a b th err ecc cx cy sgn v y x gp gerr g :
  (2 <= length c)%nat ->
  (gp = scalar VNone /\ g = no_gauss_dict \/ exists l, length l = 5%nat /\ gp = vector l /\ g = gauss_dict l) ->
  to_dict (attrs (final_obj c lvl ar rad a b th err ecc cx cy sgn v y x gp gerr) (scalar (VNum (Num (inject_Z id))))) default_properties =
  Ok (final_dict id c lvl ar rad a b th err ecc cx cy sgn v y x g gerr).
Proof.
  intros Hc Hg. unfold to_dict, default_properties.
  set (ats := attrs _ _).
  rewrite to_dict_step. change (ats "identifier"%string) with (scalar (VNum (Num (inject_Z id)))).
  change (put_property "identifier" (scalar (VNum (Num (inject_Z id)))) []) with (Ok [("identifier"%string, CScalar (VNum (Num (inject_Z id))))]).
  rewrite to_dict_step. change (ats "contour"%string) with (mkArr [length c; 2%nat] (flatten c)).
  rewrite put_contour by exact Hc. unfold ats.
  destruct Hg as [[-> ->]|(l & Hl & -> & ->)].
  - reflexivity.
  - destruct l as [|g1 [|g2 [|g3 [|g4 [|g5 [|]]]]]]; try discriminate. reflexivity.
Qed.

Lemma sequence_map_all {A B} (f : A -> option B) (g : A -> B) l : (forall a, In a l -> f a = Some (g a)) -> sequence (map f l) = Some (map g l).
Proof.
  induction l as [|a l IH]; intro H; [reflexivity|]. cbn. rewrite (H a (or_introl eq_refl)), IH; [reflexivity|]. intros; apply H; right; assumption.
Qed.
Lemma table_length_final id c lvl ar rad a b th err ecc cx cy sgn v y x g gerr :
  (g = no_gauss_dict \/ exists l, length l = 5%nat /\ g = gauss_dict l) ->
  table_length (final_dict id c lvl ar rad a b th err ecc cx cy sgn v y x g gerr) = Ok (length c).
Proof.
  intro Hg. unfold table_length, final_dict. cbn [table_length_aux app map]. rewrite map_length, map_length, Nat.eqb_refl.
  destruct Hg as [->|(l & Hl & ->)]; [reflexivity|].
  destruct l as [|g1 [|g2 [|g3 [|g4 [|g5 [|]]]]]]; try discriminate. reflexivity.
Qed.
Lemma cols_final id c lvl ar rad a b th err ecc cx cy sgn v y x g gerr gl i p :
  nth_error c i = Some p ->
  (g = no_gauss_dict /\ gl = [NaN] \/ exists l, length l = 5%nat /\ g = gauss_dict l /\ gl = l) ->
  cols_at (final_dict id c lvl ar rad a b th err ecc cx cy sgn v y x g gerr) i =
  Some (mkCols y x rad err gerr ([fst p; snd p; lvl; ar; a; b; th; ecc; cx; cy; sgn; v] ++ gl)).
Proof.
  intros Hp Hg. unfold cols_at, final_dict.
  destruct Hg as [[-> ->]|(l & Hl & -> & ->)].
  - cbn -[nth_error]. rewrite !nth_error_map, Hp. reflexivity.
  - destruct l as [|g1 [|g2 [|g3 [|g4 [|g5 [|]]]]]]; try discriminate. cbn -[nth_error]. rewrite !nth_error_map, Hp. reflexivity.
Qed.

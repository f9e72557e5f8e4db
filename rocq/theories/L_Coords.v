From Coq Require Import Lia.
From Verif Require Import M_Base M_Coords S_Coords.
Open Scope string_scope.

Lemma prefix_cons a b p s : String.prefix (String a p) (String b s) = if Ascii.ascii_dec a b then String.prefix p s else false.
Proof. reflexivity. Qed.
Lemma prefix_spec p s : String.prefix p s = true <-> exists b, s = p ++ b.
Proof.
  revert s. induction p as [|a p IH]; intro s.
  - split; [intros _; exists s; reflexivity|destruct s; reflexivity].
  - destruct s as [|b s]; [split; [discriminate|intros [c H]; discriminate]|]. rewrite prefix_cons. destruct (Ascii.ascii_dec a b) as [->|N].
    + rewrite IH. split; intros [c H]; exists c; [rewrite H; reflexivity|]. injection H as ->. reflexivity.
    + split; [discriminate|]. intros [c H]. injection H as H1 H2. congruence.
Qed.
Lemma contains_spec p s : contains p s = true <-> occurs p s.
Proof.
  induction s as [|a s IH]; cbn [contains]; rewrite orb_true_iff, prefix_spec.
  - split; [intros [[b H]|H]; [exists "", b; exact H|discriminate]|]. intros [u [v H]]. left. exists v. destruct u; [exact H|discriminate].
  - rewrite IH. split.
    + intros [[b H]|[u [v H]]]; [exists "", b; exact H|]. exists (String a u), v. rewrite H. reflexivity.
    + intros [[|c u] [v H]]; [left; exists v; exact H|]. right. injection H as _ H. exists u, v. exact H.
Qed.
Lemma like_spec p q s : (contains p s || String.eqb s q)%bool = true <-> occurs p s \/ s = q.
Proof. rewrite orb_true_iff, contains_spec, String.eqb_eq. reflexivity. Qed.
Lemma like_reflect p q s : {occurs p s \/ s = q} + {~ (occurs p s \/ s = q)}.
Proof. destruct (contains p s || String.eqb s q)%bool eqn:E; [left|right]; rewrite <- like_spec, E; congruence. Qed.
Lemma like_true p q s : occurs p s \/ s = q -> (contains p s || String.eqb s q)%bool = true. Proof. apply like_spec. Qed.
Lemma like_false p q s : ~ (occurs p s \/ s = q) -> (contains p s || String.eqb s q)%bool = false.
Proof. intro H. destruct (contains p s || String.eqb s q)%bool eqn:E; [exfalso; apply H, like_spec, E|reflexivity]. Qed.

(** Last name of a list with a property. *)
Lemma dims_step c n : (time_dim n /\ get_dims c n = mkCoords n (c_x c) (c_y c) (c_xvar c) (c_yvar c)) \/
  (lon_dim n /\ get_dims c n = mkCoords (c_time c) n (c_y c) (c_xvar c) (c_yvar c)) \/
  (lat_dim n /\ get_dims c n = mkCoords (c_time c) (c_x c) n (c_xvar c) (c_yvar c)) \/
  (~ time_dim n /\ ~ lon_dim n /\ ~ lat_dim n /\ get_dims c n = c).
Proof.
  unfold get_dims, lon_dim, lat_dim, lat_name, lon_name, time_dim. destruct (like_reflect "time" "t" n) as [T|T].
  - rewrite (like_true _ _ _ T). tauto.
  - rewrite (like_false _ _ _ T). destruct (like_reflect "lon" "x" n) as [L|L].
    + rewrite (like_true _ _ _ L). tauto.
    + rewrite (like_false _ _ _ L). destruct (like_reflect "lat" "y" n) as [Y|Y].
      * rewrite (like_true _ _ _ Y). tauto.
      * rewrite (like_false _ _ _ Y). tauto.
Qed.
Lemma kinds_apart n : (time_dim n -> ~ lon_dim n /\ ~ lat_dim n) /\ (lon_dim n -> ~ time_dim n /\ ~ lat_dim n) /\ (lat_dim n -> ~ time_dim n /\ ~ lon_dim n).
Proof. unfold lon_dim, lat_dim, lat_name. tauto. Qed.
(** What a field of the coordinates holds after the loop over the dimensions. *)
Lemma dims_fold (P : string -> Prop) (g : coords -> string) :
  (forall c n, (P n /\ g (get_dims c n) = n) \/ (~ P n /\ g (get_dims c n) = g c)) ->
  forall l c, (exists n, In n l /\ P n /\ g (fold_left get_dims l c) = n) \/ ((forall n, In n l -> ~ P n) /\ g (fold_left get_dims l c) = g c).
Proof.
  intro S. induction l as [|m l IH]; intro c; [right; split; [intros n []|reflexivity]|]. cbn [fold_left]. destruct (IH (get_dims c m)) as [[n [Hn [Pn E]]]|[N E]].
  - left. exists n. split; [right; exact Hn|auto].
  - destruct (S c m) as [[Pm G]|[Pm G]].
    + left. exists m. split; [left; reflexivity|]. split; [exact Pm|congruence].
    + right. split; [intros n [<-|Hn]; auto|congruence].
Qed.
Lemma time_step c n : (time_dim n /\ c_time (get_dims c n) = n) \/ (~ time_dim n /\ c_time (get_dims c n) = c_time c).
Proof. pose proof (kinds_apart n). destruct (dims_step c n) as [[K E]|[[K E]|[[K E]|[K [_ [_ E]]]]]]; rewrite E; cbn; tauto. Qed.
Lemma lon_step c n : (lon_dim n /\ c_x (get_dims c n) = n) \/ (~ lon_dim n /\ c_x (get_dims c n) = c_x c).
Proof. pose proof (kinds_apart n). destruct (dims_step c n) as [[K E]|[[K E]|[[K E]|[_ [K [_ E]]]]]]; rewrite E; cbn; tauto. Qed.
Lemma lat_step c n : (lat_dim n /\ c_y (get_dims c n) = n) \/ (~ lat_dim n /\ c_y (get_dims c n) = c_y c).
Proof. pose proof (kinds_apart n). destruct (dims_step c n) as [[K E]|[[K E]|[[K E]|[_ [_ [K E]]]]]]; rewrite E; cbn; tauto. Qed.
Lemma dims_keep l : forall c, c_xvar (fold_left get_dims l c) = c_xvar c /\ c_yvar (fold_left get_dims l c) = c_yvar c.
Proof.
  induction l as [|n l IH]; intro c; [auto|]. cbn [fold_left]. destruct (IH (get_dims c n)) as [-> ->]. destruct (dims_step c n) as [[K E]|[[K E]|[[K E]|[_ [_ [K E]]]]]]; rewrite E; auto.
Qed.
Lemma vars_step c n : (lon_name n /\ get_vars c n = mkCoords (c_time c) (c_x c) (c_y c) (Some n) (c_yvar c)) \/
  (lat_name n /\ get_vars c n = mkCoords (c_time c) (c_x c) (c_y c) (c_xvar c) (Some n)) \/ (~ lon_name n /\ ~ lat_name n /\ get_vars c n = c).
Proof.
  unfold get_vars, lat_name, lon_name. destruct (like_reflect "lon" "x" n) as [L|L].
  - rewrite (like_true _ _ _ L). tauto.
  - rewrite (like_false _ _ _ L). destruct (like_reflect "lat" "y" n) as [Y|Y].
    + rewrite (like_true _ _ _ Y). tauto.
    + rewrite (like_false _ _ _ Y). tauto.
Qed.
Lemma vars_keep l : forall c, c_time (fold_left get_vars l c) = c_time c /\ c_x (fold_left get_vars l c) = c_x c /\ c_y (fold_left get_vars l c) = c_y c.
Proof.
  induction l as [|n l IH]; intro c; [auto|]. cbn [fold_left]. destruct (IH (get_vars c n)) as [-> [-> ->]]. destruct (vars_step c n) as [[K E]|[[K E]|[_ [K E]]]]; rewrite E; auto.
Qed.
Lemma names_apart n : lon_name n -> ~ lat_name n. Proof. unfold lat_name. tauto. Qed.
Lemma xvar_fold l : forall c, (exists v, In v l /\ lon_name v /\ c_xvar (fold_left get_vars l c) = Some v) \/ ((forall v, In v l -> ~ lon_name v) /\ c_xvar (fold_left get_vars l c) = c_xvar c).
Proof.
  induction l as [|n l IH]; intro c; [right; split; [intros v []|reflexivity]|]. cbn [fold_left]. destruct (IH (get_vars c n)) as [[v [Hv [P E]]]|[N E]].
  - left. exists v. split; [right; exact Hv|auto].
  - rewrite E. destruct (vars_step c n) as [[K G]|[[K G]|[K [_ G]]]]; rewrite G; cbn [c_xvar].
    + left. exists n. split; [left; reflexivity|auto].
    + right. split; [|reflexivity]. intros v [<-|Hv]; [|auto]. intro L. exact (names_apart _ L K).
    + right. split; [|reflexivity]. intros v [<-|Hv]; auto.
Qed.
Lemma yvar_fold l : forall c, (exists v, In v l /\ lat_name v /\ c_yvar (fold_left get_vars l c) = Some v) \/ ((forall v, In v l -> ~ lat_name v) /\ c_yvar (fold_left get_vars l c) = c_yvar c).
Proof.
  induction l as [|n l IH]; intro c; [right; split; [intros v []|reflexivity]|]. cbn [fold_left]. destruct (IH (get_vars c n)) as [[v [Hv [P E]]]|[N E]].
  - left. exists v. split; [right; exact Hv|auto].
  - rewrite E. destruct (vars_step c n) as [[K G]|[[K G]|[_ [K G]]]]; rewrite G; cbn [c_yvar].
    + right. split; [|reflexivity]. intros v [<-|Hv]; [|auto]. exact (names_apart _ K).
    + left. exists n. split; [left; reflexivity|auto].
    + right. split; [|reflexivity]. intros v [<-|Hv]; auto.
Qed.
Lemma the_only_fold P g dims n : (forall c m, (P m /\ g (get_dims c m) = m) \/ (~ P m /\ g (get_dims c m) = g c)) -> the_only P dims n -> g (fold_left get_dims dims no_coords) = n.
Proof. intros S [I [Pn U]]. destruct (dims_fold P g S dims no_coords) as [[m [Hm [Pm ->]]]|[N _]]; [exact (U m Hm Pm)|]. exfalso. exact (N n I Pn). Qed.
Lemma none_fold P g dims : (forall c m, (P m /\ g (get_dims c m) = m) \/ (~ P m /\ g (get_dims c m) = g c)) -> (forall n, In n dims -> ~ P n) -> g (fold_left get_dims dims no_coords) = g no_coords.
Proof. intros S H. destruct (dims_fold P g S dims no_coords) as [[m [Hm [Pm _]]]|[_ E]]; [|exact E]. exfalso. exact (H m Hm Pm). Qed.
Lemma identify_dims dims vars : let c := identify_coords dims vars in let c0 := fold_left get_dims dims no_coords in c_time c = c_time c0 /\ c_x c = c_x c0 /\ c_y c = c_y c0.
Proof. cbn. apply vars_keep. Qed.
Lemma identify_vars dims vars : coordinate_variables vars \/ ~ coordinate_variables vars /\ (c_xvar (identify_coords dims vars) = None \/ c_yvar (identify_coords dims vars) = None).
Proof.
  unfold identify_coords, coordinate_variables. destruct (dims_keep dims no_coords) as [X Y]. destruct (xvar_fold vars (fold_left get_dims dims no_coords)) as [[v [Hv [Pv Ev]]]|[N E]].
  - destruct (yvar_fold vars (fold_left get_dims dims no_coords)) as [[w [Hw [Pw Ew]]]|[N E]].
    + left. split; [exists v|exists w]; auto.
    + right. split; [|right; rewrite E; exact Y]. intros [_ [w [Hw Pw]]]. exact (N w Hw Pw).
  - right. split; [|left; rewrite E; exact X]. intros [[v [Hv Pv]] _]. exact (N v Hv Pv).
Qed.
Lemma nonempty P n : (P = "lon" \/ P = "lat") -> occurs P n -> n <> "".
Proof. intros H [a [b ->]] E. destruct a; [|discriminate]. destruct H as [-> | ->]; discriminate. Qed.
Lemma lon_nonempty n : lon_name n -> n <> "". Proof. intros [H| ->]; [exact (nonempty "lon" n (or_introl eq_refl) H)|discriminate]. Qed.
Lemma lat_nonempty n : lat_name n -> n <> "". Proof. intros [[H| ->] _]; [exact (nonempty "lat" n (or_intror eq_refl) H)|discriminate]. Qed.

Lemma nth_map_ix {A B} (f : A -> B) l i : nth_error (map f l) i = option_map f (nth_error l i).
Proof. revert l. induction i as [|i IH]; intros [|x l]; cbn; auto. Qed.
Lemma nth_some {A} (l : list A) i : (i < length l)%nat -> exists x, nth_error l i = Some x.
Proof. intro H. destruct (nth_error l i) as [x|] eqn:E; [exists x; reflexivity|]. apply nth_error_None in E. lia. Qed.
Lemma meshgrid_ok {A} (xs ys : list A) : grid_of xs ys (meshgrid xs ys).
Proof.
  unfold grid_of, meshgrid. cbn [fst snd]. rewrite !map_length. split; [reflexivity|]. split; [reflexivity|]. split.
  - intros i Hi. destruct (nth_some ys i Hi) as [y E]. exists xs, (map (fun _ => y) xs). rewrite !nth_map_ix, E, map_length. auto.
  - intros i j Hi Hj. unfold at2. destruct (nth_some ys i Hi) as [y E]. destruct (nth_some xs j Hj) as [x Ex]. rewrite !nth_map_ix, E. cbn [option_map]. rewrite nth_map_ix, Ex. auto.
Qed.
Lemma check_names {A} (get : string -> option (array A)) dims vars x y : ~ coordinate_variables vars -> the_only lon_dim dims x -> the_only lat_dim dims y ->
  init_coords dims vars get = do g <- match get x, get y with
     | Some (OneD xs), Some (OneD ys) => Ok (meshgrid xs ys) | Some (TwoD X), Some (TwoD Y) => Ok (X, Y) | Some _, Some _ => Err ValueError | _, _ => Err KeyError end; Ok (identify_coords dims vars, g).
Proof.
  intros V Hx Hy. unfold init_coords, check_coords. destruct (identify_vars dims vars) as [C|[_ N]]; [contradiction|]. destruct (identify_dims dims vars) as [_ [Ex Ey]].
  rewrite (the_only_fold lon_dim c_x dims x lon_step Hx) in Ex. rewrite (the_only_fold lat_dim c_y dims y lat_step Hy) in Ey. rewrite Ex, Ey.
  destruct Hx as [_ [[Lx _] _]], Hy as [_ [[Ly _] _]]. rewrite (proj2 (String.eqb_neq x "") (lon_nonempty x Lx)), (proj2 (String.eqb_neq y "") (lat_nonempty y Ly)). cbn [negb andb].
  destruct (c_xvar (identify_coords dims vars)) as [a|], (c_yvar (identify_coords dims vars)) as [b|]; try reflexivity. destruct N; discriminate.
Qed.

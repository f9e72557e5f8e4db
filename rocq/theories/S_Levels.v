(** Specification of what merging the eddies found at successive levels should give.
    An eddy is the list of its contour points (each with the eddy's columns); a level is a list of eddies. *)
From Verif Require Import M_Base M_Tables S_Tracking.
Open Scope Z_scope.

Definition eddy := list cols.

(** The rows of eddy number k: contour points numbered from 0. *)
Definition contour_rows (k : Z) (e : eddy) : list row :=
  map (fun ic => mkRow k 0 (Z.of_nat (fst ic)) (snd ic)) (combine (seq 0 (length e)) e).
(** The table of a list of eddies, numbered from 0. *)
Definition table (E : list eddy) : list row :=
  flat_map (fun ke => contour_rows (Z.of_nat (fst ke)) (snd ke)) (combine (seq 0 (length E)) E).
Definition level_table (N : list eddy) : frame := mkFrame (table N) (map Z.of_nat (seq 0 (length N))).

(** Position of an eddy: the extremum recorded on its first contour point. *)
Definition eddy_pos (e : eddy) (p : Q * Q) : Prop :=
  exists c rest, e = c :: rest /\ maxima_y c = Num (fst p) /\ maxima_x c = Num (snd p).
Definition eddy_ok (e : eddy) : Prop := exists p, eddy_pos e p.
Definition eddy_radius (e : eddy) (rad : Q) : Prop := exists c rest, e = c :: rest /\ radius_eddy c = Num rad.

(** Eddy j lies within the radius of eddy n. *)
Definition near (hav : Q * Q -> Q * Q -> Q) (n j : eddy) : Prop :=
  exists pn pj rad, eddy_pos n pn /\ eddy_pos j pj /\ eddy_radius n rad /\ (hav pn pj * 6371 < rad)%Q.
Definition closest (hav : Q * Q -> Q * Q -> Q) (n j : eddy) (J : list eddy) : Prop :=
  forall pn pj j' pj', eddy_pos n pn -> eddy_pos j pj -> In j' J -> eddy_pos j' pj' -> (hav pn pj <= hav pn pj')%Q.

(** Both similarity columns of j exceed those of n. *)
Definition exceeds (j n : eddy) : Prop :=
  exists cj rj cn rn a b a' b', j = cj :: rj /\ n = cn :: rn /\
    contour_ellipse_error cj = Num a /\ contour_ellipse_error cn = Num a' /\ (a' < a)%Q /\
    contour_gaussian_error cj = Num b /\ contour_gaussian_error cn = Num b' /\ (b' < b)%Q.

(** Merging the eddies N of a level into the eddies J of the earlier levels. *)
Definition merged (hav : Q * Q -> Q * Q -> Q) (J N J' : list eddy) : Prop :=
  exists (link : nat -> option nat) (kept : list eddy),
    (forall d n k, nth_error N d = Some n -> link d = Some k ->
       exists j, nth_error J k = Some j /\ near hav n j /\ closest hav n j J) /\
    (forall d n, nth_error N d = Some n -> link d = None -> forall j, In j J -> ~ near hav n j) /\
    length kept = length J /\
    (forall k j j', nth_error J k = Some j -> nth_error kept k = Some j' ->
       (exists d, nth_error N d = Some j' /\ link d = Some k /\ exceeds j j') \/
       (j' = j /\ forall d n, nth_error N d = Some n -> link d = Some k -> ~ exceeds j n)) /\
    J' = kept ++ map snd (filter (fun dn => match link (fst dn) with None => true | Some _ => false end)
                                 (combine (seq 0 (length N)) N)).

Fixpoint scanned (hav : Q * Q -> Q * Q -> Q) (J : list eddy) (levels : list (list eddy)) (E : list eddy) : Prop :=
  match levels with
  | [] => E = J
  | N :: rest => exists J', merged hav J N J' /\ scanned hav J' rest E
  end.

(** No two eddies of the level lie within their radius of the same earlier eddy. *)
Definition no_collision (hav : Q * Q -> Q * Q -> Q) (J N : list eddy) : Prop :=
  forall d d' n n' k j, d <> d' -> nth_error N d = Some n -> nth_error N d' = Some n' -> nth_error J k = Some j ->
    near hav n j -> near hav n' j -> False.
Fixpoint safe (hav : Q * Q -> Q * Q -> Q) (J : list eddy) (levels : list (list eddy)) : Prop :=
  match levels with
  | [] => True
  | N :: rest => no_collision hav J N /\ forall J', merged hav J N J' -> safe hav J' rest
  end.

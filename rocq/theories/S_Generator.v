(** Specification: synthetic fields. *)
From Coq Require Import Reals.
From Verif Require Import M_Base M_Gauss M_Generator.
Open Scope R_scope.

(** Distance between the eddies [i] and [j]. *)
Definition separation (xs ys : nat -> R) (locs : list (nat * nat)) (i j : nat) (d : R) : Prop :=
  exists p q, nth_error locs i = Some p /\ nth_error locs j = Some q /\
    d = sqrt ((xs (fst p) - xs (fst q)) ^ 2 + (ys (snd p) - ys (snd q)) ^ 2).
(** The random generator keeps to its range. *)
Definition fair (draw : nat -> nat -> nat) : Prop := forall k n, (0 < n)%nat -> (draw k n < n)%nat.
(** All positions lie on the grid. *)
Definition on_grid (xlen ylen : nat) (locs : list (nat * nat)) : Prop := forall p, In p locs -> (fst p < xlen)%nat /\ (snd p < ylen)%nat.
(** Entry (i, j) of a 2-D array. *)
Definition entry2 (d : list (list R)) (i j : nat) : option R := match nth_error d i with Some r => nth_error r j | None => None end.
(** The sum of the Gaussians [es] with the centres [cs], at (x, y). *)
Definition field_at (es : list geddy) (cs : list (R * R)) (x y : R) : R :=
  Rsum (map (fun ec => twoD_Gaussian_at (e_amp (fst ec)) (fst (snd ec)) (snd (snd ec)) (e_ra (fst ec)) (e_rb (fst ec)) (e_angle (fst ec)) x y) (combine es cs)).
(** The centre of an eddy is the grid point with its indices shifted by the margin. *)
Definition centred_at (x y : list R) (margin : nat) (e : geddy) (c : R * R) : Prop :=
  nth_error x (e_ix e + margin) = Some (fst c) /\ nth_error y (e_iy e + margin) = Some (snd c).
(** The centre is a point of the grid. *)
Definition node (x y : list R) (c : R * R) : Prop := In (fst c) x /\ In (snd c) y.
(** Options that leave the eddies where they are. *)
Definition plain (opt : string) : Prop := ~ In opt ["interaction"; "int"; "no_interaction"; "Nint"]%string.
(** An eddy at [p] is well placed with respect to the others (all of [locs] but number [i]). *)
Definition far_enough (away a b d : R) : Prop := away * a <= d /\ away * b <= d.
Definition distance_to (xs ys : nat -> R) (p q : nat * nat) : R := sqrt ((xs (fst p) - xs (fst q)) ^ 2 + (ys (snd p) - ys (snd q)) ^ 2).
(** The [j]-th attempt, when the random generator has been called [k] times. *)
Definition attempted (draw : nat -> nat -> nat) (xlen ylen k j : nat) : nat * nat := (draw (k + 2 * j)%nat xlen, draw (S (k + 2 * j))%nat ylen).
(** The array [d] of [X] rows and [Y] columns shows the eddies [es] with the centres [cs] on the axes [x] and [y], up to the order of its cells: it is
    filled row by row from a mesh with [X] points a row. *)
Definition shows (X Y : nat) (x y : list R) (es : list geddy) (cs : list (R * R)) (d : list (list R)) : Prop :=
  forall i j row column, (i < X)%nat -> (j < Y)%nat -> (column < X)%nat -> (i * Y + j = row * X + column)%nat ->
    exists u v, nth_error x column = Some u /\ nth_error y row = Some v /\ entry2 d i j = Some (field_at es cs u v).
(** Any two of the centres are at least [away] times [a] and [away] times [b] apart, or coincide while b <= a. *)
Definition spread (away a b : R) (cs : list (R * R)) : Prop :=
  forall i j c c', i <> j -> nth_error cs i = Some c -> nth_error cs j = Some c' ->
    let d := sqrt ((fst c - fst c') ^ 2 + (snd c - snd c') ^ 2) in far_enough away a b d \/ (d = 0 /\ away * b <= away * a).

(** Specification: fields. *)
From Coq Require Import Reals.
From Verif Require Import M_Base M_Gauss M_Filter.
Open Scope R_scope.

Definition cell (d : field) (i j : nat) : Prop := (i < f_ny d)%nat /\ (j < f_nx d)%nat.
(** Same shape and same cells. *)
Definition same_field (d d' : field) : Prop := f_ny d' = f_ny d /\ f_nx d' = f_nx d /\ forall i j, cell d i j -> f_at d' i j = f_at d i j.
Definition same_missing (d d' : field) : Prop := f_ny d' = f_ny d /\ f_nx d' = f_nx d /\ forall i j, cell d i j -> (f_at d' i j = None <-> f_at d i j = None).
(** a d + b d', missing where one of them is. *)
Definition comb (a b : R) (x y : option R) : option R := match x, y with Some u, Some v => Some (a * u + b * v) | _, _ => None end.
Definition combination (a b : R) (d d' : field) : field := mkField (f_ny d) (f_nx d) (fun i j => comb a b (f_at d i j) (f_at d' i j)).
(** The data with missing values replaced by 0. *)
Definition filled (d : field) : field := mkField (f_ny d) (f_nx d) (fun i j => match f_at d i j with None => Some 0 | v => v end).
(** Sum of the values that are not missing. *)
Definition total (l : list (option R)) : R := Rsum (valid l).
(** The square window of side 2 h + 1 around (i, j) lies in the grid. *)
Definition fits (h : nat) (d : field) (i j : nat) : Prop := (h <= i)%nat /\ (i + h < f_ny d)%nat /\ (h <= j)%nat /\ (j + h < f_nx d)%nat.
(** Number of cells of the window around (i, j) that lie in the grid; (2 h + 1)^2 when it fits. *)
Definition overlap (n h i : nat) : nat := (Nat.min n (i + h + 1) - (i - h))%nat.
Definition inside (h : nat) (d : field) (i j : nat) : nat := (overlap (f_ny d) h i * overlap (f_nx d) h j)%nat.

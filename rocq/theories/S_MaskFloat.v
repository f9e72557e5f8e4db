(** Specification: numbers of a floating-point format, and when a mean is far enough from zero. *)
From Coq Require Import Reals QArith Qreals List.
Import ListNotations.
From Flocq Require Import Core.
From Verif Require Import M_Base M_Window S_Window M_MaskFloat.
Local Open Scope R_scope.

Definition proper_format (f : format) : Prop := (1 < f_prec f < f_emax f)%Z.
Definition double_format : format := mkFormat 53 1024.
Definition single_format : format := mkFormat 24 128.
(** x is a finite number of the format: m times a power of two, with m of at most prec digits. *)
Definition number_of (f : format) (x : R) : Prop :=
  Rabs x < bpow radix2 (f_emax f) /\ exists m e : Z, x = IZR m * bpow radix2 e /\ (Z.abs m < 2 ^ f_prec f)%Z /\ (f_emin f <= e)%Z.
Definition field_of (f : format) (data : grid num) : Prop := forall i j q, at_ data i j = Some (Num q) -> number_of f (Q2R q).
(** half a unit in the last place of 1 *)
Definition unit_roundoff (f : format) : R := bpow radix2 (- f_prec f).
Definition total (l : list R) : R := fold_right Rplus 0 l.
Definition total_abs (l : list R) : R := fold_right (fun x s => Rabs x + s) 0 l.
(** The sum is farther from 0 than rounding can move it (and its mean is not lost by underflow), and the magnitudes do not overflow. *)
Definition clear_sum (f : format) (l : list R) : Prop :=
  ((1 + unit_roundoff f) ^ (length l - 1) - 1) * total_abs l + INR (length l) * bpow radix2 (f_emin f) < Rabs (total l) /\
  (1 + unit_roundoff f) ^ length l * total_abs l < bpow radix2 (f_emax f).
(** (i, j) is the first cell, row by row, with the largest (smallest) of the values inside; q is its value. *)
Definition first_largest (data : grid num) (mask : grid bool) (i j : nat) (q : Q) : Prop :=
  value_at data mask i j q /\ forall i' j' d, value_at data mask i' j' d -> (d <= q)%Q /\ (before (i', j') (i, j) -> (d < q)%Q).
Definition first_smallest (data : grid num) (mask : grid bool) (i j : nat) (q : Q) : Prop :=
  value_at data mask i j q /\ forall i' j' d, value_at data mask i' j' d -> (q <= d)%Q /\ (before (i', j') (i, j) -> (q < d)%Q).

(** Numbers of type double and the operations on them: those of the reals followed by rounding to the nearest double (Flocq's format FLT, ties to even), as long as there
    is no overflow. *)
From Coq Require Import Reals.
From Flocq Require Import Core.
From Verif Require Import M_Printer.
Open Scope R_scope.

Definition double (x : R) : Prop := generic_format radix2 (FLT_exp (-1074) 53) x.
Definition add64 (x y : R) : R := b64 (x + y).
Definition sub64 (x y : R) : R := b64 (x - y).
Definition mul64 (x y : R) : R := b64 (x * y).
Definition div64 (x y : R) : R := b64 (x / y).
(** v is between a and b *)
Definition within (a b v : R) : Prop := a <= v <= b \/ b <= v <= a.

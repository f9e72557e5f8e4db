(** Base vocabulary of the model: Python exceptions as values, numbers with NaN,
    and the two numpy/pandas primitives (stable sort, sorted unique) used everywhere. *)
From Coq Require Export String Bool ZArith QArith Qabs List.
Export ListNotations.
Open Scope Z_scope.

(** Python exceptions raised by the modelled code.  [OutOfFuel] is not a Python exception: it marks a loop
    or recursion of the model that ran out of its step budget. *)
Inductive exn :=
  | KeyError | ValueError | TypeError | IndexError | ZeroDivisionError | ImportError | WarningError
  | RecursionError | AttributeError | OutOfFuel.

Inductive res (A : Type) := Ok (a : A) | Err (e : exn).
Arguments Ok {A} a.
Arguments Err {A} e.

Definition bind {A B} (x : res A) (f : A -> res B) : res B :=
  match x with Ok a => f a | Err e => Err e end.
Notation "'do' x <- e ; f" := (bind e (fun x => f)) (at level 200, x pattern, e at level 100, f at level 200).

(** IEEE doubles, abstracted: a rational or NaN.  Infinities and rounding are not modelled. *)
Inductive num := NaN | Num (q : Q).

Definition is_nan (x : num) : bool := match x with NaN => true | Num _ => false end.

(** Comparisons are false as soon as one side is NaN (IEEE 754, numpy). *)
Definition nlt (x y : num) : bool :=
  match x, y with Num a, Num b => negb (Qle_bool b a) | _, _ => false end.
Definition nle (x y : num) : bool :=
  match x, y with Num a, Num b => Qle_bool a b | _, _ => false end.
Definition ngt (x y : num) : bool := nlt y x.
Definition neqb (x y : num) : bool :=
  match x, y with Num a, Num b => Qeq_bool a b | _, _ => false end.

(** Arithmetic propagates NaN. *)
Definition nadd (x y : num) : num :=
  match x, y with Num a, Num b => Num (a + b) | _, _ => NaN end.
Definition nsub (x y : num) : num :=
  match x, y with Num a, Num b => Num (a - b) | _, _ => NaN end.
Definition nmul (x y : num) : num :=
  match x, y with Num a, Num b => Num (a * b) | _, _ => NaN end.
Definition nabs (x : num) : num :=
  match x with Num a => Num (Qabs a) | NaN => NaN end.

(** Stable insertion sort: pandas [sort_index] on a MultiIndex ([lexsort_indexer], counting/merge sort) is stable. *)
Fixpoint insert {A} (le : A -> A -> bool) (x : A) (l : list A) : list A :=
  match l with
  | [] => [x]
  | y :: t => if le x y then x :: y :: t else y :: insert le x t
  end.
Fixpoint isort {A} (le : A -> A -> bool) (l : list A) : list A :=
  match l with [] => [] | x :: t => insert le x (isort le t) end.

(** [np.unique] / [Index.unique().sort_values()] on integers. *)
Fixpoint insert_uniq (x : Z) (l : list Z) : list Z :=
  match l with
  | [] => [x]
  | y :: t => if x <? y then x :: y :: t else if x =? y then y :: t else y :: insert_uniq x t
  end.
Fixpoint sort_uniq (l : list Z) : list Z :=
  match l with [] => [] | x :: t => insert_uniq x (sort_uniq t) end.

(** Position of a label in a list of labels. *)
Fixpoint index_of (x : Z) (l : list Z) : option nat :=
  match l with
  | [] => None
  | y :: t => if x =? y then Some O else option_map S (index_of x t)
  end.

(** [np.arange(0, n)] *)
Definition zseq (n : nat) : list Z := map Z.of_nat (seq 0 n).
(** [range(a, b)] / [np.arange(a, b)] *)
Definition zrange (a b : Z) : list Z := map (fun i => a + Z.of_nat i) (seq 0 (Z.to_nat (b - a))).

(** Keep [Some]s; fail when one is missing. *)
Fixpoint sequence {A} (l : list (option A)) : option (list A) :=
  match l with
  | [] => Some []
  | None :: _ => None
  | Some a :: t => match sequence t with Some r => Some (a :: r) | None => None end
  end.

(** Progress messages: /repo/trackeddy/printfunc.py 10-52.  Floating-point operations are those of the reals followed by rounding to binary64 (Flocq's FLT format,
    nearest, ties to even); no overflow occurs for the sizes in question. *)
From Coq Require Import Reals.
From Flocq Require Import Core.
From Coq Require Import Ascii String DecimalString.
From Verif Require Import M_Base.
Open Scope string_scope.
Open Scope R_scope.

(** 13-14: comparison of tuples of strings *)
Fixpoint str_lt (s t : string) : bool :=
  match s, t with
  | _, EmptyString => false
  | EmptyString, _ => true
  | String a s', String b t' => let m := Ascii.nat_of_ascii a in let n := Ascii.nat_of_ascii b in (Nat.ltb m n || (Nat.eqb m n && str_lt s' t'))%bool
  end.
Fixpoint tuple_lt (s t : list string) : bool :=
  match s, t with
  | _, [] => false
  | [], _ => true
  | a :: s', b :: t' => (str_lt a b || (String.eqb a b && tuple_lt s' t'))%bool
  end.
(** [platform.python_version_tuple()] of version major.minor.patch *)
Definition show (n : nat) : string := NilEmpty.string_of_uint (Nat.to_uint n).
Definition version_tuple (major minor patch : nat) : list string := [show major; show minor; show patch].
Definition printer_init (major minor patch : nat) : res unit := if tuple_lt (version_tuple major minor patch) ["3"; "10"; "0"] then Err ImportError else Ok tt.

(** binary64 *)
Definition b64 (x : R) : R := round radix2 (FLT_exp (-1074) 53) ZnearestE x.
(** Python's int() and round() of a float *)
Definition py_int (x : R) : Z := Ztrunc x.
Definition py_round (x : R) : Z := ZnearestE x.
(** 30 *)
Definition percent (maxv i : Z) : R := b64 (b64 (IZR (i + 1) / IZR maxv) * 100).
(** 34 *)
Definition progress (maxv step i : Z) : Z := py_int (b64 (10 / b64 (IZR maxv / IZR (step * (i + 1))))).
(** [s * n] for a string s of one character: empty for n <= 0 *)
Fixpoint repeat_char (a : Ascii.ascii) (n : nat) : string := match n with O => "" | S m => String a (repeat_char a m) end.
Definition times (a : Ascii.ascii) (n : Z) : string := repeat_char a (Z.to_nat n).
(** 35-41: the bar *)
Definition bar (maxv step i : Z) : string := let p := progress maxv step i in (times "="%char p ++ ">" ++ times " "%char (10 - p))%string.
(** 42: the percentage shown *)
Definition shown_percent (maxv i : Z) : Z := py_round (percent maxv i).
(** 32: estimated total time from the elapsed seconds *)
Definition estimate (maxv i etime : Z) : Z := py_round (b64 (b64 (IZR etime / percent maxv i) * 100)).

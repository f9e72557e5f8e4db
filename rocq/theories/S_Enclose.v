(** Specification: what a closed contour encloses (even-odd rule), on the mesh and in the plane. *)
From Coq Require Import ZArith List Bool.
From Verif Require Import S_Cntr.
Import ListNotations.
Local Open Scope Z_scope.

(** *** On the mesh *)
Section Mesh.
Variable cols : Z.
(** Side e is in the row of point p, to the east of it *)
Definition eastern (p : Z) (e : Z * Z) : bool :=
  (row_of cols (fst e) =? row_of cols p) && (row_of cols (snd e) =? row_of cols p) && ((col_of cols p <? col_of cols (fst e)) || (col_of cols p <? col_of cols (snd e))).
(** Going from p to the east along the row one meets the closed curve an odd number of times (its last side, which is its first one again, is not counted) *)
Definition encloses (c : list (Z * Z)) (p : Z) : Prop := Nat.odd (length (filter (eastern p) (removelast c))) = true.
(** The curve goes through side (p, q) *)
Definition goes_through (c : list (Z * Z)) (p q : Z) : Prop := In (p, q) c \/ In (q, p) c.
End Mesh.

(** *** In the plane *)
From Coq Require Import Reals.
Local Open Scope R_scope.
Definition greater (a b : R) : bool := if Rlt_dec b a then true else false.
(** The straight line from u to v crosses the parallel of p, and this to the east of p *)
Definition crosses_east (p u v : R * R) : bool :=
  xorb (greater (snd u) (snd p)) (greater (snd v) (snd p)) && greater (fst u + (snd p - snd u) * (fst v - fst u) / (snd v - snd u)) (fst p).
Fixpoint lines_of (vs : list (R * R)) : list ((R * R) * (R * R)) := match vs with u :: ((v :: _) as l) => (u, v) :: lines_of l | _ => [] end.
(** p is inside the polygon: a ray from p to the east crosses it an odd number of times *)
Definition inside_of (vs : list (R * R)) (p : R * R) : Prop := Nat.odd (length (filter (fun s => crosses_east p (fst s) (snd s)) (lines_of vs))) = true.

(** Curve length, discrete Frechet distance and similarity: /repo/trackeddy/geometry.py 281-414.
    Coordinates and distances are real numbers: IEEE rounding and NaN are not modelled here. *)
From Coq Require Export Reals Lra.
From Flocq Require Import Core.
From Verif Require Import M_Base.
Open Scope R_scope.

Definition point := (R * R)%type.
(** [np.linalg.norm(p - q)] and [math.dist(p, q)] *)
Definition dist (a b : point) : R := sqrt ((fst a - fst b)² + (snd a - snd b)²).

(** 281-295 [arc_length]: the loop over i in range(0, len(curve) - 1) *)
Fixpoint arc_from (acc : R) (curve : list point) : R :=
  match curve with a :: (b :: _) as rest => arc_from (acc + dist a b) rest | _ => acc end.
Definition arc_length (curve : list point) : R := arc_from 0 curve.

(** *** 307-328 [_c] *)
(** The table [ca]; the function writes in it. *)
Definition table := nat -> nat -> R.
Definition set_table (ca : table) (i j : nat) (v : R) : table :=
  fun a b => if (Nat.eqb a i && Nat.eqb b j)%bool then v else ca a b.
Definition norm_at (p q : list point) (i j : nat) : res R :=
  match nth_error p i, nth_error q j with Some a, Some b => Ok (dist a b) | _, _ => Err IndexError end.
(** [frames]: how many nested calls of [_c] the interpreter still allows.  The three calls of the last case are made in
    the order written.  The final [else] of the code (i or j negative) is not reachable with natural indices. *)
Fixpoint c_ (frames : nat) (p q : list point) (ca : table) (i j : nat) {struct frames} : res (R * table) :=
  match frames with
  | O => Err RecursionError
  | S f =>
      if Rlt_dec (-1) (ca i j) then Ok (ca i j, ca) else
      match i, j with
      | O, O => do n <- norm_at p q 0 0; Ok (n, set_table ca 0 0 n)
      | S i', O => do (v, ca1) <- c_ f p q ca i' 0; do n <- norm_at p q i 0;
                   let r := Rmax v n in Ok (r, set_table ca1 i 0 r)
      | O, S j' => do (v, ca1) <- c_ f p q ca 0 j'; do n <- norm_at p q 0 j;
                   let r := Rmax v n in Ok (r, set_table ca1 0 j r)
      | S i', S j' =>
          do (v1, ca1) <- c_ f p q ca i' j; do (v2, ca2) <- c_ f p q ca1 i' j'; do (v3, ca3) <- c_ f p q ca2 i j';
          do n <- norm_at p q i j;
          let r := Rmax (Rmin (Rmin v1 v2) v3) n in Ok (r, set_table ca3 i j r)
      end
  end.

(** *** 331-414 [frdist] *)
(** [p[0::c]]: skip counts the points still to be left out. *)
Fixpoint every {A} (c skip : nat) (l : list A) : list A :=
  match l with [] => [] | x :: t => match skip with O => x :: every c (c - 1) t | S k => every c k t end end.
(** 402-408: while both have more than 300 points keep one point out of c, then increase c. *)
Fixpoint thin {A} (fuel : nat) (c : nat) (p q : list A) : res (list A * list A) :=
  if (300 <? Z.of_nat (length p))%Z && (300 <? Z.of_nat (length q))%Z then
    match fuel with O => Err OutOfFuel | S f => thin f (c + 1) (every c 0 p) (every c 0 q) end
  else Ok (p, q).
(** A curve without points makes [ca[len_p - 1, len_q - 1]] an index into an empty axis. *)
Definition frdist (frames : nat) (P Q : list point) : res R :=
  let p := if Nat.leb (length Q) (length P) then P else Q in
  let q := if Nat.leb (length Q) (length P) then Q else P in
  do (p, q) <- thin (length p) 2 p q;
  match p, q with
  | _ :: _, _ :: _ => do (v, _) <- c_ frames p q (fun _ _ => -1) (length p - 1) (length q - 1); Ok v
  | _, _ => Err IndexError
  end.

(** 298-304 [compute_similarity]; [round(x, 4)] is round-half-even to four decimals. *)
Definition round4 (x : R) : R := IZR (ZnearestE (x * 10000)) / 10000.
Definition compute_similarity (frames : nat) (curve1 curve2 : list point) : res R :=
  let avg := sqrt (arc_length curve1 * arc_length curve2) in
  do fd <- frdist frames curve1 curve2;
  Ok (round4 (Rmax (1 - fd / (avg / sqrt 2)) 0)).

(** The Frechet distance and the similarity in floating-point arithmetic, with NaN, overflow and the number of calls: /repo/trackeddy/geometry.py 281-414.
    [M_Frechet] is the same code over the real numbers. *)
From Coq Require Import Reals.
From Flocq Require Import Core.
From Verif Require Import M_Base M_Printer M_Frechet.
Open Scope R_scope.

(** A float that is not negative infinity (distances and lengths are not negative); the numbers are those of type double in [sim64]. *)
Inductive fl := Nan | Fin (x : R) | Inf.
(** [a < b] and [b > a]: false when one of them is NaN *)
Definition flt (a b : fl) : bool :=
  match a, b with Fin x, Fin y => if Rlt_dec x y then true else false | Fin _, Inf => true | _, _ => false end.
(** Python's [max(a, b)] and [min(a, b, c)]: the first argument, unless a later one is larger (smaller) *)
Definition pmax (a b : fl) : fl := if flt a b then b else a.
Definition pmin (a b : fl) : fl := if flt b a then b else a.

Section Any.
Context {A : Type}.
(** [np.linalg.norm(p[i] - q[j])] *)
Variable norm : A -> A -> fl.
Definition ftable := nat -> nat -> fl.
Definition fset (ca : ftable) (i j : nat) (v : fl) : ftable := fun a b => if (Nat.eqb a i && Nat.eqb b j)%bool then v else ca a b.
Definition fnorm_at (p q : list A) (i j : nat) : res fl :=
  match nth_error p i, nth_error q j with Some a, Some b => Ok (norm a b) | _, _ => Err IndexError end.
(** 307-328 [_c]: the value, the table and the number of calls of [_c], this one included; frames as in [M_Frechet.c_] *)
Fixpoint fc (frames : nat) (p q : list A) (ca : ftable) (i j : nat) {struct frames} : res (fl * ftable * nat) :=
  match frames with
  | O => Err RecursionError
  | S f =>
      if flt (Fin (-1)) (ca i j) then Ok (ca i j, ca, 1%nat) else
      match i, j with
      | O, O => do n <- fnorm_at p q 0 0; Ok (n, fset ca 0 0 n, 1%nat)
      | S i', O => do (vc, k) <- fc f p q ca i' 0; do n <- fnorm_at p q i 0;
                   let r := pmax (fst vc) n in Ok (r, fset (snd vc) i 0 r, S k)
      | O, S j' => do (vc, k) <- fc f p q ca 0 j'; do n <- fnorm_at p q 0 j;
                   let r := pmax (fst vc) n in Ok (r, fset (snd vc) 0 j r, S k)
      | S i', S j' =>
          do (vc1, k1) <- fc f p q ca i' j; do (vc2, k2) <- fc f p q (snd vc1) i' j'; do (vc3, k3) <- fc f p q (snd vc2) i j';
          do n <- fnorm_at p q i j;
          let r := pmax (pmin (pmin (fst vc1) (fst vc2)) (fst vc3)) n in Ok (r, fset (snd vc3) i j r, S (k1 + k2 + k3))
      end
  end.
(** 331-414 [frdist]: the distance and the number of calls of [_c] *)
Definition ffrdist (frames : nat) (P Q : list A) : res (fl * nat) :=
  let p := if Nat.leb (length Q) (length P) then P else Q in
  let q := if Nat.leb (length Q) (length P) then Q else P in
  do (p, q) <- thin (length p) 2 p q;
  match p, q with
  | _ :: _, _ :: _ => do (vc, k) <- fc frames p q (fun _ _ => Fin (-1)) (length p - 1) (length q - 1); Ok (fst vc, k)
  | _, _ => Err IndexError
  end.
End Any.

(** *** arithmetic of double on these values; [fin] rounds and overflows to infinity *)
Definition fin (x : R) : fl := if Rle_lt_dec (bpow radix2 1024) (Rabs (b64 x)) then Inf else Fin (b64 x).
Definition fadd (a b : fl) : fl :=
  match a, b with Nan, _ | _, Nan => Nan | Fin x, Fin y => fin (x + y) | _, _ => Inf end.
(** used for factors that are not negative, so that the only product that is NaN without a NaN is 0 times infinity *)
Definition fmul (a b : fl) : fl :=
  match a, b with
  | Nan, _ | _, Nan => Nan
  | Fin x, Fin y => fin (x * y)
  | Fin x, Inf | Inf, Fin x => if Req_EM_T x 0 then Nan else Inf
  | Inf, Inf => Inf
  end.
Definition fsqrt (a : fl) : fl := match a with Nan => Nan | Fin x => fin (sqrt x) | Inf => Inf end.
(** numpy's division of values that are not negative *)
Definition fdiv (a b : fl) : fl :=
  match a, b with
  | Nan, _ | _, Nan => Nan
  | Inf, Inf => Nan
  | Inf, Fin _ => Inf
  | Fin _, Inf => Fin 0
  | Fin x, Fin y => if Req_EM_T y 0 then (if Req_EM_T x 0 then Nan else Inf) else fin (x / y)
  end.
(** Coordinates: a finite double, or NaN ([None]); infinite coordinates are not modelled. *)
Definition fpoint := (option R * option R)%type.
(** The size of [p - q] in one coordinate: rounding is symmetric, and the difference is only squared *)
Definition fdiff (a b : option R) : fl := match a, b with Some x, Some y => fin (Rabs (x - y)) | _, _ => Nan end.
(** [np.linalg.norm(p - q)] of two points: the root of the dot product of the difference with itself, rounded after every operation *)
Definition norm64 (a b : fpoint) : fl :=
  let dx := fdiff (fst a) (fst b) in let dy := fdiff (snd a) (snd b) in fsqrt (fadd (fmul dx dx) (fmul dy dy)).
Definition frdist64 : nat -> list fpoint -> list fpoint -> res (fl * nat) := ffrdist norm64.

(** 281-295 [arc_length]; [mdist] is [math.dist] *)
Fixpoint farc_from (mdist : fpoint -> fpoint -> fl) (acc : fl) (curve : list fpoint) : fl :=
  match curve with a :: (b :: _) as rest => farc_from mdist (fadd acc (mdist a b)) rest | _ => acc end.
Definition farc (mdist : fpoint -> fpoint -> fl) (curve : list fpoint) : fl := farc_from mdist (Fin 0) curve.
(** 303-304: [round(max(1 - y, 0), 4)]: numpy rounds y 10000 to an integer and divides; [max] keeps NaN *)
Definition fclip (y : fl) : fl :=
  match y with
  | Nan => Nan
  | Inf => Fin 0
  | Fin y => let r := b64 (1 - y) in if Rlt_dec r 0 then Fin 0 else Fin (b64 (IZR (ZnearestE (b64 (r * 10000))) / 10000))
  end.
(** 298-304 [compute_similarity] *)
Definition sim64 (mdist : fpoint -> fpoint -> fl) (frames : nat) (curve1 curve2 : list fpoint) : res fl :=
  let avg := fsqrt (fmul (farc mdist curve1) (farc mdist curve2)) in
  do (fd, _) <- frdist64 frames curve1 curve2;
  Ok (fclip (fdiv fd (fdiv avg (fin (sqrt 2))))).

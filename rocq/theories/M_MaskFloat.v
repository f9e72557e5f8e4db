(** The sign and the extremum of the field inside a contour when the mean is computed with floating-point numbers:
    /repo/trackeddy/utils.py 118-144.  [M_Window.mask_data] is the same code with an exact mean. *)
From Coq Require Import Reals QArith Qreals List Permutation.
Import ListNotations.
From Flocq Require Import Core.
From Verif Require Import M_Base M_Detect M_Window.

(** utils.py 118-144 [_mask_data_in_contour]; sgn_of gives [np.sign(data_inside_contour.mean())] of the array (130-133).  Products
    with a sign are exact, so that rounding only enters through sgn_of. *)
Definition mask_data_in (sgn_of : list num -> num) (cells : list (Z * Z)) (data : grid num) : res (grid bool * num * (num * nat * nat)) :=
  let ny := length data in
  let nx := match data with r :: _ => length r | [] => O end in
  match sequence (map (np_cell ny nx) cells) with
  | None => Err IndexError
  | Some cs =>
      do inside <- fill_holes ny nx (fun i j => existsb (cell_eqb (i, j)) cs);
      let flat := List.concat (tabulate ny nx (fun i j =>
        match at_ inside i j, at_ data i j with Some true, Some x => x | _, _ => NaN end)) in
      let sgn := sgn_of flat in
      match nan_argmax (map (nmul sgn) flat) 0 None with
      | None => Err ValueError
      | Some (m, k) => Ok (inside, sgn, (nmul sgn (Num m), Nat.div k nx, Nat.modulo k nx))
      end
  end.

Local Open Scope R_scope.
(** *** binary floating point: double is (53, 1024), single is (24, 128) *)
Record format := mkFormat { f_prec : Z; f_emax : Z }.
Definition f_emin (f : format) : Z := 3 - f_emax f - f_prec f.
Definition rnd (f : format) (x : R) : R := round radix2 (FLT_exp (f_emin f) (f_prec f)) ZnearestE x.
Inductive xf := XNan | XFin (x : R) | XInf (negative : bool).
Definition xround (f : format) (x : R) : xf :=
  if Rle_lt_dec (bpow radix2 (f_emax f)) (Rabs (rnd f x)) then XInf (if Rlt_dec x 0 then true else false) else XFin (rnd f x).
Definition xadd (f : format) (a b : xf) : xf :=
  match a, b with
  | XFin x, XFin y => xround f (x + y)
  | XInf n, XInf m => if Bool.eqb n m then XInf n else XNan
  | XInf n, XFin _ | XFin _, XInf n => XInf n
  | XNan, _ | _, XNan => XNan
  end.
(** Division by a count; the count is an integer, exact as a float when it is at most 2^prec *)
Definition xdiv (f : format) (a : xf) (n : nat) : xf := match a with XFin x => XFin (rnd f (x / INR n)) | _ => a end.
(** [np.sign] *)
Definition xsign (a : xf) : num :=
  match a with
  | XNan => NaN
  | XInf n => if n then Num (-1) else Num 1
  | XFin x => if Rlt_dec 0 x then Num 1 else if Rlt_dec x 0 then Num (-1) else Num 0
  end.
(** utils.py 130: the sum behind [DataArray.mean]: missing values are left out (or count as 0), the others are added in an order and
    grouping that numpy or bottleneck choose (one after the other, in pairs, in eight partial sums). *)
Inductive summed (f : format) : list R -> xf -> Prop :=
  | sum_none : summed f [] (XFin 0)
  | sum_one x : summed f [x] (XFin x)
  | sum_two l l1 l2 a b : Permutation l (l1 ++ l2) -> summed f l1 a -> summed f l2 b -> summed f l (xadd f a b).
Definition numbers (l : list num) : list Q := flat_map (fun x => match x with Num q => [q] | NaN => [] end) l.
(** 130-133: the mean is the sum divided by the number of values (NaN when there are none) *)
Definition computed_with (f : format) (sgn_of : list num -> num) : Prop :=
  forall l, (numbers l = [] /\ sgn_of l = NaN) \/
            (numbers l <> [] /\ exists s, summed f (map Q2R (numbers l)) s /\ sgn_of l = xsign (xdiv f s (length (numbers l)))).
(** The values added one after the other, in the order of storage *)
Definition one_by_one (f : format) (l : list num) : num :=
  match numbers l with
  | [] => NaN
  | q => xsign (xdiv f (fold_left (fun a x => xadd f a (XFin (Q2R x))) q (XFin 0)) (length q))
  end.

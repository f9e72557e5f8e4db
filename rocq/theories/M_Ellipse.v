(** fit_ellipse, /repo/trackeddy/geometry.py 171-278, in real arithmetic. *)
From Coq Require Export Reals Lra.
From Verif Require Import M_Base M_Gauss.
Open Scope R_scope.

(** 214-215 *)
Definition mean_of (l : list R) : R := Rsum l / INR (length l).
(** 220: the five columns of X *)
Definition columns : list (R * R -> R) :=
  [fun p => fst p ^ 2; fun p => fst p * snd p; fun p => snd p ^ 2; fun p => fst p; fun p => snd p].
(** 222-223: [np.sum(X, axis=0)] and [np.dot(X.T, X)]; [pts] are the points relative to their mean *)
Definition column_sums (pts : list (R * R)) : list R := map (fun f => Rsum (map f pts)) columns.
Definition normal_matrix (pts : list (R * R)) : list (list R) :=
  map (fun f => map (fun g => Rsum (map (fun p => f p * g p) pts)) columns) columns.
Definition centred (contour : list (R * R)) : list (R * R) :=
  let mx := mean_of (map fst contour) in let my := mean_of (map snd contour) in
  map (fun p => (fst p - mx, snd p - my)) contour.

(** 229-234; None is NaN: for b = 0 and a = c the code computes arctan(0/0) *)
Definition angle_x_axis (a b c : R) : option R :=
  if Req_EM_T b 0 then if Rlt_dec a c then Some 0 else if Rlt_dec c a then Some (PI / 2) else None
  else Some (atan ((c - a - sqrt ((a - c) ^ 2 + b ^ 2)) / b)).

(** 236: [min(abs(b / a), abs(b / c)) > orientation_tolerance], with numpy's division by zero and Python's min *)
Inductive ext := Fin (r : R) | Infinite | NotANumber.
Definition abs_div (b a : R) : ext := if Req_EM_T a 0 then if Req_EM_T b 0 then NotANumber else Infinite else Fin (Rabs (b / a)).
Definition ext_lt (x y : ext) : bool :=
  match x, y with Fin r, Fin s => if Rlt_dec r s then true else false | Fin _, Infinite => true | _, _ => false end.
Definition py_min (x y : ext) : ext := if ext_lt y x then y else x.
Definition tolerance : R := 1 / 1000.
Definition tilted (a b c : R) : bool := ext_lt (Fin tolerance) (py_min (abs_div b a) (abs_div b c)).
(** 239 and 254; for c = a the quotient is infinite and arctan gives plus or minus pi/2 ([tilted] implies b <> 0) *)
Definition orientation (a b c : R) : R :=
  if tilted a b c then
    1 / 2 * (if Req_EM_T (c - a) 0 then if Rlt_dec 0 b then PI / 2 else - (PI / 2) else atan (b / (c - a)))
  else 0.

(** 240-252: coefficients and mean in the turned frame (b becomes 0); without tilt the code leaves them unchanged *)
Definition turned (a b c d e mx my : R) : R * R * R * R * R * R :=
  if tilted a b c then
    let cs := cos (orientation a b c) in let sn := sin (orientation a b c) in
    (a * cs ^ 2 - b * cs * sn + c * sn ^ 2, a * sn ^ 2 + b * cs * sn + c * cs ^ 2, d * cs - e * sn, d * sn + e * cs,
     cs * mx - sn * my, sn * mx + cs * my)
  else (a, c, d, e, mx, my).

(** 268: [np.linspace(0, 2 * np.pi, n)] *)
Definition linspace_2pi (n : nat) : list R :=
  map (fun i => if Nat.eqb n 1 then 0 else 2 * PI * INR i / INR (n - 1)) (seq 0 n).
Record fit := mkFit { f_points : list (R * R); f_major : R; f_minor : R; f_theta : option R }.
(** 259-278; None: a coefficient of the turned conic is 0, the code then divides by 0 and returns numbers that are not finite *)
Definition fit_from (a b c d e mx my : R) (n : nat) : option fit :=
  let '(a1, c1, d1, e1, mx1, my1) := turned a b c d e mx my in
  if Req_EM_T a1 0 then None else if Req_EM_T c1 0 then None else
  let X0 := mx1 - d1 / 2 / a1 in let Y0 := my1 - e1 / 2 / c1 in
  let F := 1 + d1 ^ 2 / (4 * a1) + e1 ^ 2 / (4 * c1) in
  let ax := sqrt (Rabs (F / a1)) in let bx := sqrt (Rabs (F / c1)) in
  let cs := cos (orientation a b c) in let sn := sin (orientation a b c) in
  let pts := map (fun t => let ex := X0 + ax * cos t in let ey := Y0 + bx * sin t in (cs * ex + sn * ey, - sn * ex + cs * ey)) (linspace_2pi n) in
  Some (mkFit pts (Rmax ax bx) (Rmin ax bx) (angle_x_axis a b c)).

(** The whole function; [solve] is numpy.linalg.solve, None when it raises LinAlgError (a ValueError). *)
Definition fit_ellipse (solve : list (list R) -> list R -> option (list R)) (contour : list (R * R)) : res (option fit) :=
  let pts := centred contour in
  match solve (normal_matrix pts) (column_sums pts) with
  | Some [a; b; c; d; e] => Ok (fit_from a b c d e (mean_of (map fst contour)) (mean_of (map snd contour)) (length contour))
  | _ => Err ValueError
  end.

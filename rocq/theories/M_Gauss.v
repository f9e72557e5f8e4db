(** Gaussian surfaces, their fit, the Rossby radius and the eccentricity: /repo/trackeddy/geometry.py 46-168 and 417-437,
    /repo/trackeddy/physics.py, and the Gaussians of /repo/trackeddy/generator.
    Numbers are reals; [option R] where NaN can appear.  IEEE rounding is not modelled except in [eccentricity_rounded]. *)
From Coq Require Export Reals Lra.
From Verif Require Import M_Base.
Open Scope R_scope.

(** geometry.py 121-154 [gaussian], the value at one point; both widths are supposed to be non-zero (the code divides by them). *)
Definition gaussian_at (amplitude xo yo sigma_x sigma_y theta : R) (x y : R) : R :=
  let cos_phi := cos theta in let sin_phi := sin theta in
  let a := cos_phi ^ 2 / (2 * sigma_x ^ 2) + sin_phi ^ 2 / (2 * sigma_y ^ 2) in
  let b := sin (2 * theta) / (4 * sigma_x ^ 2) - sin (2 * theta) / (4 * sigma_y ^ 2) in
  let c := sin_phi ^ 2 / (2 * sigma_x ^ 2) + cos_phi ^ 2 / (2 * sigma_y ^ 2) in
  amplitude * exp (- (a * (x - xo) ^ 2 + 2 * b * (x - xo) * (y - yo) + c * (y - yo) ^ 2)).
(** [coords] are the raveled X and Y *)
Definition gaussian (coords : list (R * R)) (amplitude xo yo sigma_x sigma_y theta : R) : list R :=
  map (fun p => gaussian_at amplitude xo yo sigma_x sigma_y theta (fst p) (snd p)) coords.

(** generator/field_generator.py 62-109 [twoD_Gaussian], the value at one point *)
Definition twoD_Gaussian_at (amplitude xo yo sigma_x sigma_y theta : R) (x y : R) : R :=
  if (if Req_EM_T sigma_y 0 then if Req_EM_T sigma_x 0 then false else true else true) then
    let a := cos theta ^ 2 / (2 * sigma_x ^ 2) + sin theta ^ 2 / (2 * sigma_y ^ 2) in
    let b := - sin (2 * theta) / (4 * sigma_x ^ 2) + sin (2 * theta) / (4 * sigma_y ^ 2) in
    let c := sin theta ^ 2 / (2 * sigma_x ^ 2) + cos theta ^ 2 / (2 * sigma_y ^ 2) in
    amplitude * exp (- (a * (x - xo) ^ 2 + 2 * b * (x - xo) * (y - yo) + c * (y - yo) ^ 2))
  else (x - xo) * 0 + (y - yo) * 0.

(** *** geometry.py 157-168 [gaussian_residual] *)
Definition Rsum (l : list R) : R := fold_right Rplus 0 l.
(** [np.mean]; None is NaN (mean of nothing) *)
Definition Rmean (l : list R) : option R := match l with [] => None | _ => Some (Rsum l / INR (length l)) end.
(** entries that are not NaN *)
Fixpoint valid (l : list (option R)) : list R :=
  match l with [] => [] | Some x :: t => x :: valid t | None :: t => valid t end.
Definition nanmean (l : list (option R)) : option R := Rmean (valid l).
Definition nanstd (l : list (option R)) : option R :=
  match nanmean l with
  | None => None
  | Some m => option_map sqrt (Rmean (map (fun v => (v - m) ^ 2) (valid l)))
  end.
(** [abs(data2fit - gauss)]; data in the order of [ravel] *)
Fixpoint abs_diff (data : list (option R)) (gauss : list R) : list (option R) :=
  match data, gauss with
  | d :: data', g :: gauss' => option_map (fun v => Rabs (v - g)) d :: abs_diff data' gauss'
  | _, _ => []
  end.
(** reshape raises ValueError when the sizes differ *)
Definition gaussian_residual (data : list (option R)) (gauss : list R) : res (option R) :=
  if Nat.eqb (length gauss) (length data) then
    match nanstd (abs_diff data gauss), nanmean (abs_diff data gauss) with
    | Some s, Some m => Ok (Some (s * m)) | _, _ => Ok None
    end
  else Err ValueError.

(** *** geometry.py 72-104 [Fit_Surface.construct_bounds] *)
Fixpoint diff1 (l : list R) : list R := match l with x :: ((y :: _) as t) => (y - x) :: diff1 t | _ => [] end.
Fixpoint zip_sub (u v : list R) : list R := match u, v with x :: u', y :: v' => (x - y) :: zip_sub u' v' | _, _ => [] end.
(** [np.diff(X, axis=1)] and [np.diff(Y, axis=0)], raveled *)
Definition diff_axis1 (X : list (list R)) : list R := concat (map diff1 X).
Fixpoint diff_axis0 (Y : list (list R)) : list R :=
  match Y with r0 :: ((r1 :: _) as t) => app (zip_sub r1 r0) (diff_axis0 t) | _ => [] end.
Definition omap2 (f : R -> R -> R) (a b : option R) : option R :=
  match a, b with Some x, Some y => Some (f x y) | _, _ => None end.
(** one column of [bounds.sort(axis=0)]; NaN is put last *)
Definition sort2 (p : option R * option R) : option R * option R :=
  match p with
  | (Some l, Some u) => if Rle_dec l u then (Some l, Some u) else (Some u, Some l)
  | (None, Some u) => (Some u, None)
  | p => p
  end.
Definition coord_bounds (init delta : option R) : option R * option R := (omap2 Rminus init delta, omap2 Rplus init delta).
(** [init != 0] is True for NaN *)
Definition ellipse_bounds (init : option R) : option R * option R :=
  match init with
  | Some v => if Req_EM_T v 0 then (Some (- (1 / 10000)), Some (1 / 10000)) else (Some (v - 7 / 10 * v), Some (v + 7 / 10 * v))
  | None => (None, None)
  end.
Record guess := mkGuess { g_x : option R; g_y : option R; g_a : option R; g_b : option R; g_theta : option R }.
Definition construct_bounds (X Y : list (list R)) (g : guess) : list (option R * option R) :=
  let xdelta := Rmean (diff_axis1 X) in let ydelta := Rmean (diff_axis0 Y) in
  map sort2 [coord_bounds (g_x g) xdelta; coord_bounds (g_y g) ydelta;
             ellipse_bounds (g_a g); ellipse_bounds (g_b g); ellipse_bounds (g_theta g)].
Definition guess_vector (g : guess) : list (option R) := [g_x g; g_y g; g_a g; g_b g; g_theta g].

(** physics.py 4-25 [approx_RD_lat] *)
Definition approx_RD_lat (x : R) : R :=
  let b := 0 in let c := 15 / 100 in
  200 * exp (- (x - b) ^ 2 / 2 * c ^ 2) + 60 * exp (- (x - b) ^ 2 / 40 * c ^ 2).

(** geometry.py 417-437 [eccentricity]; None is NaN or a division by zero *)
Definition eccentricity (a b : R) : option R :=
  let a := Rabs a in let b := Rabs b in
  if Req_EM_T (Rabs a ^ 2) 0 then None else
  let r := 1 - Rabs b ^ 2 / Rabs a ^ 2 in
  if Rlt_dec r 0 then None else Some (sqrt r).
(** the same with every operation rounded by [rnd] *)
Definition eccentricity_rounded (rnd : R -> R) (a b : R) : option R :=
  let a := Rabs a in let b := Rabs b in
  if Req_EM_T (rnd (Rabs a ^ 2)) 0 then None else
  let r := rnd (1 - rnd (rnd (Rabs b ^ 2) / rnd (Rabs a ^ 2))) in
  if Rlt_dec r 0 then None else Some (rnd (sqrt r)).

(** *** generator/gaussian_field_functions.py *)
(** 4-21 [makeGaussian]: row i, column j; [center] None is the middle of the square *)
Definition kernel_at (fwhm x0 y0 x y : R) : R := exp (- 4 * ln 2 * ((x - x0) ^ 2 + (y - y0) ^ 2) / fwhm ^ 2).
Definition makeGaussian (size : nat) (fwhm : R) (center : option (R * R)) : list (list R) :=
  let c := match center with None => (INR (Nat.div size 2), INR (Nat.div size 2)) | Some c => c end in
  map (fun i => map (fun j => kernel_at fwhm (fst c) (snd c) (INR j) (INR i)) (seq 0 size)) (seq 0 size).
(** 24-28 [moveGaussian]; [center[tt, 0]] raises IndexError when there are fewer centres than steps *)
Fixpoint move_from (size : nat) (fwhm : R) (center : list (R * R)) (tt : nat) (n : nat) : res (list (list (list R))) :=
  match n with
  | O => Ok []
  | S n' => match nth_error center tt with
            | None => Err IndexError
            | Some c => do rest <- move_from size fwhm center (S tt) n'; Ok (makeGaussian size fwhm (Some c) :: rest)
            end
  end.
Definition moveGaussian (size : nat) (fwhm : R) (center : list (R * R)) (timestep : nat) : res (list (list (list R))) :=
  move_from size fwhm center 0 timestep.

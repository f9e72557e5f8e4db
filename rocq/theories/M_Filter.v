(** Filters: /repo/trackeddy/decorators.py 41-68, /repo/trackeddy/trackeddy.py 128-179 and 266-273, in real arithmetic.
    Exceptions: [WarningError] is Python's Warning. *)
From Coq Require Import Reals.
From Verif Require Import M_Base M_Gauss.
Open Scope R_scope.

(** A snapshot with dimensions (y, x) after squeeze, both of length at least 2 (squeeze drops dimensions of length 1): value of the cell in row i and
    column j, None for NaN.  Only i < f_ny and j < f_nx are cells. *)
Record field := mkField { f_ny : nat; f_nx : nat; f_at : nat -> nat -> option R }.
Definition map_field (g : nat -> nat -> option R -> option R) (d : field) : field := mkField (f_ny d) (f_nx d) (fun i j => g i j (f_at d i j)).
Definition osub (x y : option R) : option R := match x, y with Some a, Some b => Some (a - b) | _, _ => None end.

(** trackeddy.py 266-273 (fillna(0)) *)
Definition treat_nan (nan_treatment : bool) (d : field) : field :=
  if nan_treatment then map_field (fun _ _ v => match v with None => Some 0 | _ => v end) d else d.

Definition row (d : field) (i : nat) : list (option R) := map (fun j => f_at d i j) (seq 0 (f_nx d)).
Definition column (d : field) (j : nat) : list (option R) := map (fun i => f_at d i j) (seq 0 (f_ny d)).
(** 170: [data2track - data2track.mean(x)]; xarray's mean skips NaN *)
Definition meridional (d : field) : field := map_field (fun i _ v => osub v (nanmean (row d i))) d.
(** 173 *)
Definition zonal (d : field) : field := map_field (fun _ j v => osub v (nanmean (column d j))) d.

(** 152-155: the side of the window *)
Definition side (kernel : Z) : Z := if Z.even kernel then (kernel + 1)%Z else kernel.
(** The cell at (i, j); beyond the border 0, which is astropy's default (boundary='fill', fill_value=0). *)
Definition padded (d : field) (i j : Z) : option R :=
  if ((0 <=? i)%Z && (i <? Z.of_nat (f_ny d))%Z && (0 <=? j)%Z && (j <? Z.of_nat (f_nx d))%Z)%bool
  then f_at d (Z.to_nat i) (Z.to_nat j) else Some 0.
(** Offsets of a centred square window with 2 h + 1 cells a side. *)
Definition window (h : nat) : list (Z * Z) :=
  let offs := map (fun n => (Z.of_nat n - Z.of_nat h)%Z) (seq 0 (2 * h + 1)) in
  flat_map (fun di => map (fun dj => (di, dj)) offs) offs.
(** 156: astropy.convolution.convolve with a kernel of ones and the default options: normalised kernel, NaN interpolated, that is the mean of the
    values in the window that are not NaN (the padding counts as values) *)
Definition smoothed (h : nat) (d : field) (i j : nat) : option R :=
  nanmean (map (fun o => padded d (Z.of_nat i + fst o) (Z.of_nat j + snd o)) (window h)).
(** 151-159; numpy.ones raises ValueError for a negative side *)
Definition uniform (kernel : Z) (d : field) : res field :=
  if (side kernel <? 0)%Z then Err ValueError
  else Ok (map_field (fun i j v => osub v (smoothed (Z.to_nat (side kernel / 2)) d i j)) d).

Record setup := mkSetup { s_type : string; s_mode : string; s_kernel : Z }.
(** 53-57 *)
Definition default_setup : setup := mkSetup "convolution" "uniform" 10.
(** 145-179 *)
Definition space_filter (s : setup) (d : field) : res field :=
  if String.eqb (s_type s) "convolution" then
    do d' <- (if String.eqb (s_mode s) "uniform" then uniform (s_kernel s) d else Ok d);
    if String.eqb (s_mode s) "gaussian" then Err WarningError else Ok d'
  else if String.eqb (s_type s) "meridional" then Ok (meridional d)
  else if String.eqb (s_type s) "zonal" then Ok (zonal d)
  else Err ValueError.
(** 142-143: returns None (T_filter_setup empty, as set in 59) *)
Definition time_filter (d : field) : option field := None.
(** 129-140, called with "space" or "time" only; decorators.py 57-68.  The result is self.data2track, where None is Python's None. *)
Definition filter_data (nan_treatment : bool) (filter : string) (s : setup) (d : field) : res (option field) :=
  let filtered := treat_nan nan_treatment d in
  if String.eqb filter "both" then do d' <- space_filter s filtered; Ok (time_filter d')
  else if String.eqb filter "space" then do d' <- space_filter s d; Ok (Some d')
  else if String.eqb filter "time" then Ok (time_filter d)
  else Ok (Some filtered).

(** The data around a contour: TrackEddy._data_in_contour and _get_data_in_contour (/repo/trackeddy/trackeddy.py 398-515) and
    _mask_data_in_contour (/repo/trackeddy/utils.py 118-154). *)
From Verif Require Import M_Base M_Detect.
Open Scope Z_scope.

(** *** 2-d arrays: a list of rows *)
Definition grid (A : Type) := list (list A).
Definition at_ {A} (g : grid A) (i j : nat) : option A := match nth_error g i with Some r => nth_error r j | None => None end.
Definition tabulate {A} (ny nx : nat) (f : nat -> nat -> A) : grid A := map (fun i => map (f i) (seq 0 nx)) (seq 0 ny).
(** [a[y0:y1, x0:x1]] for 0 <= y0, 0 <= x0 *)
Definition slice {A} (lo hi : Z) (l : list A) : list A := firstn (Z.to_nat (hi - lo)) (skipn (Z.to_nat lo) l).
Definition slice2 {A} (y0 y1 x0 x1 : Z) (g : grid A) : grid A := map (slice x0 x1) (slice y0 y1 g).

(** *** scipy.ndimage.binary_fill_holes, default structure (the four neighbours and the cell itself) *)
(** One masked dilation: a free cell is invaded when a neighbour is, or when it lies on the border ([border_value=1]). *)
Definition invaded (cur : grid bool) (i j : nat) : bool := match at_ cur i j with Some b => b | None => true end.
Definition dilate (ny nx : nat) (free : nat -> nat -> bool) (cur : grid bool) : grid bool :=
  tabulate ny nx (fun i j =>
    free i j && (invaded cur i j || match i with O => true | S i' => invaded cur i' j end || invaded cur (S i) j
                 || match j with O => true | S j' => invaded cur i j' end || invaded cur i (S j))).
Fixpoint row_eqb (a b : list bool) : bool :=
  match a, b with [], [] => true | x :: a', y :: b' => Bool.eqb x y && row_eqb a' b' | _, _ => false end.
Fixpoint grid_eqb (a b : grid bool) : bool :=
  match a, b with [], [] => true | x :: a', y :: b' => row_eqb x y && grid_eqb a' b' | _, _ => false end.
(** [iterations=-1]: until nothing changes. *)
Fixpoint invade (fuel : nat) (ny nx : nat) (free : nat -> nat -> bool) (cur : grid bool) : res (grid bool) :=
  let next := dilate ny nx free cur in
  if grid_eqb next cur then Ok cur else match fuel with O => Err OutOfFuel | S f => invade f ny nx free next end.
Definition fill_holes (ny nx : nat) (inside : nat -> nat -> bool) : res (grid bool) :=
  do out <- invade (ny * nx) ny nx (fun i j => negb (inside i j)) (tabulate ny nx (fun _ _ => false));
  Ok (map (map negb) out).

(** *** utils.py 118-154 [_mask_data_in_contour] *)
(** One numpy index for an axis of length n: negative counts from the end. *)
Definition np_index (n : nat) (k : Z) : option nat :=
  if (0 <=? k) && (k <? Z.of_nat n) then Some (Z.to_nat k)
  else if (- Z.of_nat n <=? k) && (k <? 0) then Some (Z.to_nat (k + Z.of_nat n)) else None.
Definition np_cell (ny nx : nat) (c : Z * Z) : option (nat * nat) :=
  match np_index ny (fst c), np_index nx (snd c) with Some i, Some j => Some (i, j) | _, _ => None end.
Definition cell_eqb (a b : nat * nat) : bool := Nat.eqb (fst a) (fst b) && Nat.eqb (snd a) (snd b).

(** [np.sign] *)
Definition nsign (x : num) : num :=
  match x with NaN => NaN | Num q => Num (if Qle_bool q 0 then (if Qle_bool 0 q then 0 else -1) else 1) end.
(** The largest valid value and the first position holding it; [None] when there is no valid value. *)
Fixpoint nan_argmax (l : list num) (i : nat) (best : option (Q * nat)) : option (Q * nat) :=
  match l with
  | [] => best
  | NaN :: t => nan_argmax t (S i) best
  | Num q :: t => nan_argmax t (S i) (match best with
                                      | None => Some (q, i)
                                      | Some (b, k) => if Qle_bool q b then Some (b, k) else Some (q, i) end)
  end.
(** The mask, the sign, and the extremum with its row and column in the window (122-144).  [argmax] raises ValueError when
    the mask holds no valid value (xarray nanargmax). *)
Definition mask_data (cells : list (Z * Z)) (data : grid num) : res (grid bool * num * (num * nat * nat)) :=
  let ny := length data in
  let nx := match data with r :: _ => length r | [] => O end in
  match sequence (map (np_cell ny nx) cells) with
  | None => Err IndexError
  | Some cs =>
      do inside <- fill_holes ny nx (fun i j => existsb (cell_eqb (i, j)) cs);
      let flat := List.concat (tabulate ny nx (fun i j =>
        match at_ inside i j, at_ data i j with Some true, Some x => x | _, _ => NaN end)) in
      let sgn := nsign (nnanmean flat) in
      match nan_argmax (map (nmul sgn) flat) 0 None with
      | None => Err ValueError
      | Some (m, k) => Ok (inside, sgn, (nmul sgn (Num m), Nat.div k nx, Nat.modulo k nx))
      end
  end.

(** *** trackeddy.py 475-515 [_get_data_in_contour]: the window *)
Inductive threshold := Auto | Width (n : Z) | Other.
Definition zmin_list (a : Z) (l : list Z) : Z := fold_left Z.min l a.
Definition zmax_list (a : Z) (l : list Z) : Z := fold_left Z.max l a.
Definition thresh_value (th : threshold) (dy dx : Z) : Z :=
  match th with
  | Auto => let v := Z.max dy dx / 2 in if v <=? 3 then 3 else v       (* int(0.5 * max), both non-negative *)
  | Width n => n
  | Other => 0
  end.
(** 495-497; [argmax] takes the first of equal values. *)
Fixpoint clamp_max (fuel : nat) (tr shape : Z * Z) : res (Z * Z) :=
  if (fst shape <? fst tr) || (snd shape <? snd tr) then
    match fuel with
    | O => Err OutOfFuel
    | S f => clamp_max f (if snd tr - snd shape <=? fst tr - fst shape then (fst tr - 1, snd tr) else (fst tr, snd tr - 1)) shape
    end
  else Ok tr.
(** 499-501 *)
Fixpoint clamp_min (fuel : nat) (bl : Z * Z) : res (Z * Z) :=
  if (fst bl <? 0) || (snd bl <? 0) then
    match fuel with
    | O => Err OutOfFuel
    | S f => clamp_min f (if fst bl <=? snd bl then (0, snd bl) else (fst bl, 0))
    end
  else Ok bl.
(** Lower corner, upper corner (exclusive), and the cells relative to the lower corner.  [np.max] of no cell raises. *)
Definition window (shape : Z * Z) (th : threshold) (cells : list (Z * Z)) : res ((Z * Z) * (Z * Z) * list (Z * Z)) :=
  match cells with
  | [] => Err ValueError
  | c :: rest =>
      let ty := zmax_list (fst c) (map fst rest) in let tx := zmax_list (snd c) (map snd rest) in
      let by_ := zmin_list (fst c) (map fst rest) in let bx := zmin_list (snd c) (map snd rest) in
      let v := thresh_value th (ty - by_) (tx - bx) in
      let tr := (ty + (v + 1), tx + (v + 1)) in
      do tr' <- clamp_max (Z.to_nat (Z.max 0 (fst tr - fst shape) + Z.max 0 (snd tr - snd shape))) tr shape;
      do bl' <- clamp_min 2 (by_ - v, bx - v);
      Ok (bl', tr', map (fun c => (fst c - fst bl', snd c - snd bl')) cells)
  end.

(** *** trackeddy.py 398-435: from contour vertices to grid cells *)
Section Grid.
(** [BallTree(points).query(vertices, k=1)]: for each vertex the position of a point. *)
Variable tree : list (Q * Q) -> list (Q * Q) -> list nat.
Variables X Y : grid Q.

Definition near_value (v p : Q) : bool := Qle_bool (Qabs (v - p)) (3 + (5 # 100) * Qabs p).
(** 405-406: Xmask * Ymask *)
Definition width_of {A} (m : grid A) : nat := match m with r :: _ => length r | [] => O end.
Definition preselect (px py : Q) : grid bool :=
  tabulate (length X) (width_of X) (fun i j =>
    match at_ X i j, at_ Y i j with Some x, Some y => near_value x px && near_value y py | _, _ => false end).
Definition count (l : list bool) : nat := length (filter (fun b => b) l).
Definition column_of (m : grid bool) (j : nat) : list bool := map (fun r => nth j r false) m.
(** 410-411 *)
Definition sum_x (m : grid bool) : list nat := map (fun j => count (column_of m j)) (seq 0 (width_of m)).
Definition sum_y (m : grid bool) : list nat := map count m.
(** [np.argmax]: first position of the largest value *)
Fixpoint argmax_from (l : list nat) (i bi bv : nat) : nat :=
  match l with [] => bi | v :: t => if Nat.ltb bv v then argmax_from t (S i) i v else argmax_from t (S i) bi bv end.
Definition argmax (l : list nat) : nat := match l with [] => O | v :: t => argmax_from t 1 0 v end.
Definition largest (l : list nat) : nat := fold_left Nat.max l O.
(** 419-420: the selected points in C order *)
Definition c_order (ny nx : nat) : list (nat * nat) := flat_map (fun i => map (pair i) (seq 0 nx)) (seq 0 ny).
Definition selected (m : grid bool) : list (Q * Q) :=
  flat_map (fun ij : nat * nat => match at_ m (fst ij) (snd ij), at_ X (fst ij) (snd ij), at_ Y (fst ij) (snd ij) with
                                  | Some true, Some x, Some y => [(x, y)] | _, _, _ => [] end)
           (c_order (length X) (width_of X)).

(** 398-438.  [BallTree] raises ValueError when no point is selected or a vertex is NaN; [unravel_index] when an index is
    beyond the product of the shape. *)
Definition unravel (h w : nat) (k : nat) : option (nat * nat) := if Nat.ltb k (h * w) then Some (Nat.div k w, Nat.modulo k w) else None.
Definition finite_point (p : num * num) : option (Q * Q) := match p with (Num x, Num y) => Some (x, y) | _ => None end.
Definition grid_cells (contour : list (num * num)) : res (list (Z * Z)) :=
  match nmean (map fst contour), nmean (map snd contour) with
  | Num px, Num py =>
      let m := preselect px py in
      let shift_x := argmax (sum_x m) in
      let shift_y := argmax (sum_y m) in
      let h := largest (sum_x m) in
      let w := largest (sum_y m) in
      match selected m, sequence (map finite_point contour) with
      | [], _ => Err ValueError
      | pts, Some vs =>
          match sequence (map (unravel h w) (tree pts vs)) with
          | Some ij => Ok (map (fun c => (Z.of_nat (fst c + shift_y), Z.of_nat (snd c + shift_x))) ij)
          | None => Err ValueError
          end
      | _, None => Err ValueError
      end
  | _, _ => Err ValueError
  end.

(** 398-473 [_data_in_contour]: sign and extremum (value, y, x) of the data field inside a contour. *)
Definition data_in_contour (field : grid num) (contour : list (num * num)) : res (num * (num * num * num)) :=
  do cells <- grid_cells contour;
  do w <- window (Z.of_nat (length X), Z.of_nat (width_of X)) Auto cells;
  let '(bl, tr, rel) := w in
  do md <- mask_data rel (slice2 (fst bl) (fst tr) (snd bl) (snd tr) field);
  let '(_, sgn, (v, yi, xi)) := md in
  match at_ (slice2 (fst bl) (fst tr) (snd bl) (snd tr) X) yi xi, at_ (slice2 (fst bl) (fst tr) (snd bl) (snd tr) Y) yi xi with
  | Some x, Some y => Ok (sgn, (v, Num y, Num x))
  | _, _ => Err IndexError
  end.
End Grid.

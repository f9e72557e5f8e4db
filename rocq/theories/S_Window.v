(** Specification of the data around a contour: connectedness inside a window, the values inside a mask, nearest grid point. *)
From Verif Require Import M_Base M_Detect S_Detect M_Window.
Open Scope Z_scope.

(** *** cells of a window of ny rows and nx columns *)
Definition in_window (ny nx : nat) (c : nat * nat) : Prop := (fst c < ny /\ snd c < nx)%nat.
Definition on_border (ny nx : nat) (c : nat * nat) : Prop :=
  in_window ny nx c /\ (fst c = O \/ S (fst c) = ny \/ snd c = O \/ S (snd c) = nx).
(** One horizontal or vertical step. *)
Definition adjacent (c d : nat * nat) : Prop :=
  (snd c = snd d /\ (fst d = S (fst c) \/ fst c = S (fst d))) \/ (fst c = fst d /\ (snd d = S (snd c) \/ snd c = S (snd d))).
(** The cell can be connected to the border of the window by steps that avoid the wall. *)
Inductive escapes (ny nx : nat) (wall : nat * nat -> Prop) : nat * nat -> Prop :=
  | escapes_border c : on_border ny nx c -> ~ wall c -> escapes ny nx wall c
  | escapes_step c d : in_window ny nx c -> ~ wall c -> adjacent c d -> escapes ny nx wall d -> escapes ny nx wall c.

(** *** rectangular arrays and the values selected by a mask *)
Definition rectangular {A} (ny nx : nat) (g : grid A) : Prop := length g = ny /\ Forall (fun r => length r = nx) g.
(** q is a (valid) value of the field at a cell of the mask. *)
Definition value_at (data : grid num) (mask : grid bool) (i j : nat) (q : Q) : Prop :=
  at_ mask i j = Some true /\ at_ data i j = Some (Num q).
(** All valid values inside the mask, row by row. *)
Definition values_inside (ny nx : nat) (data : grid num) (mask : grid bool) : list Q :=
  flat_map (fun i => flat_map (fun j => match at_ mask i j, at_ data i j with Some true, Some (Num q) => [q] | _, _ => [] end) (seq 0 nx)) (seq 0 ny).
(** Row-major order. *)
Definition before (a b : nat * nat) : Prop := (fst a < fst b \/ (fst a = fst b /\ snd a < snd b))%nat.
Definition cells_within (ny nx : nat) (cells : list (Z * Z)) : Prop :=
  Forall (fun c => 0 <= fst c < Z.of_nat ny /\ 0 <= snd c < Z.of_nat nx) cells.

(** *** nearest grid point *)
Definition dist2 (p q : Q * Q) : Q := (fst p - fst q) * (fst p - fst q) + (snd p - snd q) * (snd p - snd q).
(** A correct nearest-neighbour search: one answer per query, each the position of a point at the smallest distance. *)
Definition nearest_search (tree : list (Q * Q) -> list (Q * Q) -> list nat) : Prop :=
  forall pts vs, pts <> [] ->
    Forall2 (fun k v => exists p, nth_error pts k = Some p /\ forall p', In p' pts -> (dist2 p v <= dist2 p' v)%Q) (tree pts vs) vs.
(** 1-D coordinates, in increasing or in decreasing order. *)
Definition increasing (l : list Q) : Prop := forall i j a b, (i < j)%nat -> nth_error l i = Some a -> nth_error l j = Some b -> (a < b)%Q.
Definition decreasing (l : list Q) : Prop := forall i j a b, (i < j)%nat -> nth_error l i = Some a -> nth_error l j = Some b -> (b < a)%Q.
Definition monotone (l : list Q) : Prop := increasing l \/ decreasing l.
(** [np.meshgrid] *)
Definition mesh_x (xs ys : list Q) : grid Q := map (fun _ => xs) ys.
Definition mesh_y (xs ys : list Q) : grid Q := map (fun y => map (fun _ => y) xs) ys.
(** The preselection around the mean vertex (px, py): within 3 degrees plus 5 percent. *)
Definition near (v p : Q) : Prop := (Qabs (v - p) <= 3 + (5 # 100) * Qabs p)%Q.
Definition grid_point (X Y : grid Q) (i j : nat) (p : Q * Q) : Prop := at_ X i j = Some (fst p) /\ at_ Y i j = Some (snd p).
Definition preselected (X Y : grid Q) (px py : Q) (i j : nat) (p : Q * Q) : Prop := grid_point X Y i j p /\ near (fst p) px /\ near (snd p) py.
(** The cell (i, j) holds a grid point nearest to v among the preselected ones. *)
Definition nearest_preselected (X Y : grid Q) (px py : Q) (v : Q * Q) (i j : nat) : Prop :=
  exists p, preselected X Y px py i j p /\ forall i' j' p', preselected X Y px py i' j' p' -> (dist2 p v <= dist2 p' v)%Q.
(** ... among all grid points. *)
Definition nearest_of_all (X Y : grid Q) (v : Q * Q) (i j : nat) : Prop :=
  exists p, grid_point X Y i j p /\ forall i' j' p', grid_point X Y i' j' p' -> (dist2 p v <= dist2 p' v)%Q.
(** The preselected cells are the whole of a block of consecutive rows and columns. *)
Definition block_preselection (ny nx : nat) (X Y : grid Q) (px py : Q) : Prop :=
  exists a w b h, (a + w <= nx)%nat /\ (b + h <= ny)%nat /\
    forall i j p, grid_point X Y i j p -> (near (fst p) px /\ near (snd p) py <-> (b <= i < b + h)%nat /\ (a <= j < a + w)%nat).
(** A contour whose vertices are all numbers. *)
Definition finite_contour (vs : list (Q * Q)) : list (num * num) := map (fun v => (Num (fst v), Num (snd v))) vs.
(** Cell k is the right one for vertex k. *)
Definition mapped_right (X Y : grid Q) (px py : Q) (vs : list (Q * Q)) (cells : list (Z * Z)) : Prop :=
  Forall2 (fun c v => exists i j, c = (Z.of_nat i, Z.of_nat j) /\ nearest_preselected X Y px py v i j) cells vs.

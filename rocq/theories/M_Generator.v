(** Synthetic fields: /repo/trackeddy/generator/field_generator.py, in real arithmetic.  Random numbers are an oracle: [draw k n] is the value of the
    k-th call of the random generator when it is asked for an integer in 0..n-1 (rnd.randint(0, n - 1)). *)
From Coq Require Import Reals.
From Verif Require Import M_Base M_Gauss.
Open Scope R_scope.

(** An entry of self.eddies (22-34).  "loc" is a list of one position, index in x and index in y, as 25-27 and 137 build it. *)
Record geddy := mkGeddy { e_ix : nat; e_iy : nat; e_ra : R; e_rb : R; e_angle : R; e_amp : R }.
Record gen := mkGen { g_x : list R; g_y : list R; g_xlen : nat; g_ylen : nat; g_a : R; g_b : R; g_opt : string; g_eddies : list geddy }.

(** What the caller may pass as n, by Python type; 21 and 33-36: [type(n) != list or type(n) != tuple] holds for every n, and range(n) raises TypeError
    for everything but an integer *)
Inductive pyarg := PyInt (n : Z) | PyList | PyTuple | PyFloat.
Definition is_list (a : pyarg) : bool := match a with PyList => true | _ => false end.
Definition is_tuple (a : pyarg) : bool := match a with PyTuple => true | _ => false end.
Definition eddy_numbers (a : pyarg) : res (list nat) :=
  if (negb (is_list a) || negb (is_tuple a))%bool then match a with PyInt n => Ok (seq 0 (Z.to_nat n)) | _ => Err TypeError end else Err ValueError.

(** 6-7 *)
Definition dist (p q : R * R) : R := sqrt ((fst p - fst q) ^ 2 + (snd q - snd p) ^ 2).

Section Position.
Variable draw : nat -> nat -> nat.
Variables xlen ylen : nat.
(** self.x and self.y; the indices used are below xlen and ylen *)
Variables xs ys : nat -> R.
Variables a b away : R.
Definition place (p : nat * nat) : R * R := (xs (fst p), ys (snd p)).
Definition distances (locs : list (nat * nat)) (p : nat * nat) : list R := map (fun q => dist (place p) (place q)) locs.
Definition below (d t : R) : bool := if Rlt_dec d t then true else false.
Definition zero (d : R) : bool := if Req_EM_T d 0 then true else false.
(** 128-132 *)
Definition crowded_first (locs : list (nat * nat)) (p : nat * nat) : bool :=
  let ds := map (fun d => if zero d then away * a else d) (distances locs p) in
  (existsb (fun d => below d (away * a)) ds || existsb (fun d => below d (away * b)) ds)%bool.
(** 148-155; with at most one zero among the distances it is replaced by infinity, that is left out of the comparison *)
Definition crowded (locs : list (nat * nat)) (p : nat * nat) : bool :=
  let ds := distances locs p in
  let ds' := if Nat.leb (length (filter zero ds)) 1 then filter (fun d => negb (zero d)) ds else map (fun d => if zero d then away * a else d) ds in
  (existsb (fun d => below d (away * a)) ds' || existsb (fun d => below d (away * b)) ds')%bool.
Fixpoint set_nth {A} (i : nat) (v : A) (l : list A) : list A :=
  match l, i with [], _ => [] | _ :: t, O => v :: t | x :: t, S i' => x :: set_nth i' v t end.
(** 134-156: the loop for eddy [i]; [fuel] bounds the number of iterations, OutOfFuel means that the loop has not ended.  [locs] are the positions of
    self.eddies; eddies_loc equals them whenever it is used, since 138 recomputes it after every change (and 112-118 only matters when [loc] decides). *)
Fixpoint reposition (fuel : nat) (count : Z) (checker : bool) (locs : list (nat * nat)) (k i : nat) : res (list (nat * nat) * nat) :=
  if (checker || (10000 <=? count)%Z)%bool then
    match fuel with
    | O => Err OutOfFuel
    | S f => let p := (draw k xlen, draw (S k) ylen) in let locs' := set_nth i p locs in
             reposition f (count + 1) (crowded locs' p) locs' (S (S k)) i
    end
  else Ok (locs, k).
(** 119-158 *)
Fixpoint check_from (fuel : nat) (loc : bool) (i todo : nat) (locs : list (nat * nat)) (k : nat) : res (list (nat * nat) * nat) :=
  match todo with
  | O => Ok (locs, k)
  | S n => match nth_error locs i with
           | None => Err IndexError
           | Some p => do r <- reposition fuel 0 (crowded_first locs p || loc) locs k i; check_from fuel loc (S i) n (fst r) (snd r)
           end
  end.
(** 112-118: with [loc] two numbers are drawn for every eddy first *)
Definition checkposition (fuel : nat) (loc : bool) (locs : list (nat * nat)) (k : nat) : res (list (nat * nat) * nat) :=
  check_from fuel loc 0 (length locs) locs (if loc then k + 2 * length locs else k)%nat.
End Position.

(** 38-60 and 161-170: directions by number *)
Definition move (n step : Z) : option (Z * Z) :=
  (match n with 1 => Some (step, 0) | 2 => Some (0, step) | 3 => Some (0, - step) | 4 => Some (- step, 0)
              | 5 => Some (- step, - step) | 6 => Some (- step, step) | 7 => Some (step, - step) | 8 => Some (step, step) | _ => None end)%Z.
(** 160-176: one draw (in 1..8) for every entry of indexs; the last one counts *)
Definition make_random_walk (draws : list Z) (indexs : list Z) (steps : Z) : res (Z * Z) :=
  match last (map Some (firstn (length indexs) draws)) None with
  | None => Err ValueError (* no draw: Python raises UnboundLocalError *)
  | Some n => match move n steps with
              | None => Err KeyError
              | Some mv => match indexs with x :: y :: _ => Ok (x + fst mv, y + snd mv)%Z | _ => Err IndexError end
              end
  end.

(** 209-210: np.linspace, min and max *)
Definition linspace (lo hi : R) (n : nat) : list R := map (fun k => if Nat.eqb n 1 then lo else lo + INR k * ((hi - lo) / INR (n - 1))) (seq 0 n).
Definition least (x : R) (l : list R) : R := fold_left Rmin l x.
Definition greatest (x : R) (l : list R) : R := fold_left Rmax l x.
Definition stretched (l : list R) (n : nat) : res (list R) := match l with [] => Err ValueError | x :: t => Ok (linspace (least x t) (greatest x t) n) end.
(** 208-224: the new axes (self.x and self.y are replaced) and the centre of the eddy *)
Definition random_places (opt : string) : bool := (String.eqb opt "interaction" || String.eqb opt "int")%bool.
Definition pass_args (draw : nat -> nat -> nat) (e : geddy) (margin : nat) (g : gen) (k : nat) : res (gen * nat * (R * R)) :=
  do x <- stretched (g_x g) (g_xlen g + 2 * margin)%nat; do y <- stretched (g_y g) (g_ylen g + 2 * margin)%nat;
  let '(p, q, k') := if random_places (g_opt g) then (draw k (g_xlen g), draw (S k) (g_ylen g), S (S k)) else (e_ix e, e_iy e, k) in
  match nth_error x (p + margin), nth_error y (q + margin) with
  | Some xc, Some yc => Ok (mkGen x y (g_xlen g) (g_ylen g) (g_a g) (g_b g) (g_opt g) (g_eddies g), k', (xc, yc))
  | _, _ => Err IndexError
  end.

(** A flat array, and reshape to (rows, columns): None when the sizes differ (ValueError) *)
Definition reshape (flat : list R) (rows columns : nat) : res (list (list R)) :=
  if Nat.eqb (length flat) (rows * columns) then Ok (map (fun i => firstn columns (skipn (i * columns) flat)) (seq 0 rows)) else Err ValueError.
(** 211 and 80-109: the Gaussian on the mesh of the axes, in the order of ravel: rows along y, columns along x *)
Definition mesh_values (e : geddy) (c : R * R) (x y : list R) : list R :=
  flat_map (fun v => map (fun u => twoD_Gaussian_at (e_amp e) (fst c) (snd c) (e_ra e) (e_rb e) (e_angle e) u v) x) y.
Fixpoint add_rows (u v : list R) : list R := match u, v with s :: u', t :: v' => (s + t) :: add_rows u' v' | _, _ => [] end.
Fixpoint add_arrays (u v : list (list R)) : list (list R) := match u, v with s :: u', t :: v' => add_rows s t :: add_arrays u' v' | _, _ => [] end.
Definition zeros (rows columns : nat) : list (list R) := repeat (repeat 0 columns) rows.
(** 186-193 *)
Fixpoint add_eddies (draw : nat -> nat -> nat) (margin rows columns : nat) (es : list geddy) (data : list (list R)) (g : gen) (k : nat) : res (list (list R) * gen * nat) :=
  match es with
  | [] => Ok (data, g, k)
  | e :: t => do r <- pass_args draw e margin g k; let '(g', k', c) := r in
              do v <- reshape (mesh_values e c (g_x g') (g_y g')) rows columns;
              add_eddies draw margin rows columns t (add_arrays data v) g' k'
  end.
(** 178-194; the option "no_interaction" moves the eddies with checkposition(5, True) before every time step *)
Definition place_eddies (es : list geddy) (locs : list (nat * nat)) : list geddy :=
  map (fun el => mkGeddy (fst (snd el)) (snd (snd el)) (e_ra (fst el)) (e_rb (fst el)) (e_angle (fst el)) (e_amp (fst el))) (combine es locs).
Definition kept_apart (opt : string) : bool := (String.eqb opt "no_interaction" || String.eqb opt "Nint")%bool.
Fixpoint assemble_from (draw : nat -> nat -> nat) (fuel N margin : nat) (g : gen) (k : nat) : res (list (list (list R)) * gen) :=
  match N with
  | O => Ok ([], g)
  | S n =>
      do r <- (if kept_apart (g_opt g) then
                 do r <- checkposition draw (g_xlen g) (g_ylen g) (fun i => nth i (g_x g) 0) (fun i => nth i (g_y g) 0) (g_a g) (g_b g) 5 fuel true
                           (map (fun e => (e_ix e, e_iy e)) (g_eddies g)) k;
                 Ok (mkGen (g_x g) (g_y g) (g_xlen g) (g_ylen g) (g_a g) (g_b g) (g_opt g) (place_eddies (g_eddies g) (fst r)), snd r)
               else Ok (g, k));
      let '(g1, k1) := r in
      do s <- add_eddies draw margin (g_xlen g1 + 2 * margin) (g_ylen g1 + 2 * margin) (g_eddies g1) (zeros (g_xlen g1 + 2 * margin) (g_ylen g1 + 2 * margin)) g1 k1;
      let '(d, g2, k2) := s in
      do rest <- assemble_from draw fuel n margin g2 k2; Ok (d :: fst rest, snd rest)
  end.
Definition assemble_field := assemble_from.
(** 196-206 *)
Definition reconstruct_field (draw : nat -> nat -> nat) (g : gen) (k : nat) : res (list (list R)) :=
  do r <- add_eddies draw 50 (g_xlen g) (g_ylen g) (g_eddies g) (zeros (g_xlen g) (g_ylen g)) g k; Ok (fst (fst r)).

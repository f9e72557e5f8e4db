(** The contour tracer: /repo/trackeddy/src/cntr.c, for the one way /repo/trackeddy/geometry.py 32-34 calls it: one level, no mask (reg is NULL), no
    chunks (nchunk is 0).  Everything that is only reached with two levels (edge_walker, slit_cutter, slits, the values 2, 5 and 6 of [done]) is left out.

    Memory is explicit: every access to an array is checked against its length, and an access outside gives [Err IndexError] (undefined behaviour in C).
    C integers are unbounded here.  The tracer uses the numbers only through
    - [above k]: z[k] > level (false for NaN), and
    - [centre p q r s]: (z[p] + z[q] + z[r] + z[s]) / 4.0 > level, with the additions in this order,
    which are arbitrary functions: everything proved below holds for floating point numbers as well. *)
From Verif Require Import M_Base.

(** 244-274: the bits of Cdata, for one level *)
Record cell := mkCell { c_z : bool; c_zone : bool; c_ib : bool; c_jb : bool; c_i0 : bool; c_i1 : bool; c_j0 : bool; c_j1 : bool; c_row : bool; c_open : bool; c_done : bool }.
Definition blank : cell := mkCell false false false false false false false false false false false.
Definition with_z (b : bool) (c : cell) := mkCell b (c_zone c) (c_ib c) (c_jb c) (c_i0 c) (c_i1 c) (c_j0 c) (c_j1 c) (c_row c) (c_open c) (c_done c).
Definition with_zone (b : bool) (c : cell) := mkCell (c_z c) b (c_ib c) (c_jb c) (c_i0 c) (c_i1 c) (c_j0 c) (c_j1 c) (c_row c) (c_open c) (c_done c).
Definition with_ib (b : bool) (c : cell) := mkCell (c_z c) (c_zone c) b (c_jb c) (c_i0 c) (c_i1 c) (c_j0 c) (c_j1 c) (c_row c) (c_open c) (c_done c).
Definition with_jb (b : bool) (c : cell) := mkCell (c_z c) (c_zone c) (c_ib c) b (c_i0 c) (c_i1 c) (c_j0 c) (c_j1 c) (c_row c) (c_open c) (c_done c).
Definition with_i0 (b : bool) (c : cell) := mkCell (c_z c) (c_zone c) (c_ib c) (c_jb c) b (c_i1 c) (c_j0 c) (c_j1 c) (c_row c) (c_open c) (c_done c).
Definition with_i1 (b : bool) (c : cell) := mkCell (c_z c) (c_zone c) (c_ib c) (c_jb c) (c_i0 c) b (c_j0 c) (c_j1 c) (c_row c) (c_open c) (c_done c).
Definition with_j0 (b : bool) (c : cell) := mkCell (c_z c) (c_zone c) (c_ib c) (c_jb c) (c_i0 c) (c_i1 c) b (c_j1 c) (c_row c) (c_open c) (c_done c).
Definition with_j1 (b : bool) (c : cell) := mkCell (c_z c) (c_zone c) (c_ib c) (c_jb c) (c_i0 c) (c_i1 c) (c_j0 c) b (c_row c) (c_open c) (c_done c).
Definition with_row (b : bool) (c : cell) := mkCell (c_z c) (c_zone c) (c_ib c) (c_jb c) (c_i0 c) (c_i1 c) (c_j0 c) (c_j1 c) b (c_open c) (c_done c).
Definition with_open (b : bool) (c : cell) := mkCell (c_z c) (c_zone c) (c_ib c) (c_jb c) (c_i0 c) (c_i1 c) (c_j0 c) (c_j1 c) (c_row c) b (c_done c).
Definition with_done (b : bool) (c : cell) := mkCell (c_z c) (c_zone c) (c_ib c) (c_jb c) (c_i0 c) (c_i1 c) (c_j0 c) (c_j1 c) (c_row c) (c_open c) b.

(** Arrays: the contents and, apart, the length *)
Definition inside (n k : Z) : bool := ((0 <=? k) && (k <? n))%bool.
Definition get {A} (n : Z) (d : Z -> A) (k : Z) : res A := if inside n k then Ok (d k) else Err IndexError.
Definition put {A} (n : Z) (d : Z -> A) (k : Z) (v : A) : res (Z -> A) := if inside n k then Ok (fun m => if m =? k then v else d m) else Err IndexError.
Definition change {A} (n : Z) (d : Z -> A) (k : Z) (f : A -> A) : res (Z -> A) := do c <- get n d k; put n d k (f c).

(** Loops of a known number of rounds *)
Fixpoint rounds {S} (k : nat) (i : Z) (body : Z -> S -> res S) (s : S) : res S :=
  match k with O => Ok s | Datatypes.S k' => do s' <- body i s; rounds k' (i + 1) body s' end.

Section Tracer.
Variables imax jmax : Z.
Variable above : Z -> bool.
Variable centre : Z -> Z -> Z -> Z -> bool.
Definition nreg : Z := imax * jmax + imax + 1.
Definition ijmax : Z := imax * jmax.

(** *** data_init, 1014-1229 *)
(** What the loops carry: the data array, count, ichunk, i_was_chunk.  icsize is imax - 1 and irem is imax (1030, 1060) *)
Record init_state := mkInit { n_data : Z -> cell; n_count : Z; n_ichunk : Z; n_was : bool }.
(** 1116-1155: start marks of an i-edge *)
Definition i_marks (ij : Z) (ibndy : bool) (d : Z -> cell) (count : Z) : res ((Z -> cell) * Z) :=
  do c0 <- get nreg d ij; do cb <- get nreg d (ij - imax);
  let v0 := c_z c0 in let vb := c_z cb in
  if eqb v0 vb then Ok (d, count) else
  do c1 <- get nreg d (ij + 1);
  if ibndy then
    do d1 <- (if c_zone c0 then change nreg d ij (with_i0 true) else Ok d);
    do d2 <- (if c_zone c1 then change nreg d1 ij (with_i1 true) else Ok d1);
    Ok (d2, count + (if c_zone c0 then 1 else 0) + (if c_zone c1 then 1 else 0))
  else
    do ca <- get nreg d (ij - 1); do cd <- get nreg d (ij - imax + 1);
    let va := c_z ca in let vc := c_z c1 in let vd := c_z cd in
    let m0 := (negb v0 && negb (eqb va v0) && (negb (eqb vc v0) || negb (eqb vd v0)) && c_zone c0)%bool in
    let m1 := (negb vb && eqb va vb && (eqb vc vb || eqb vd vb) && c_zone c1)%bool in
    do d1 <- (if m0 then change nreg d ij (with_i0 true) else Ok d);
    do d2 <- (if m1 then change nreg d1 ij (with_i1 true) else Ok d1);
    Ok (d2, count + (if m0 then 1 else 0) + (if m1 then 1 else 0)).
(** 1162-1200: start marks of a j-edge that is a boundary *)
Definition j_marks (ij : Z) (d : Z -> cell) (count : Z) : res ((Z -> cell) * Z) :=
  do c0 <- get nreg d ij; do cb <- get nreg d (ij - 1);
  if eqb (c_z c0) (c_z cb) then Ok (d, count) else
  do ca <- get nreg d (ij + imax);
  do d1 <- (if c_zone c0 then change nreg d ij (with_j0 true) else Ok d);
  do d2 <- (if c_zone ca then change nreg d1 ij (with_j1 true) else Ok d1);
  Ok (d2, count + (if c_zone c0 then 1 else 0) + (if c_zone ca then 1 else 0)).
(** 1079-1204: one point (i, j), ij = i + j imax *)
Definition init_point (j jchunk i : Z) (s : init_state) : res init_state :=
  let ij := i + j * imax in
  do d <- put nreg (n_data s) (ij + imax + 1) (with_zone ((i <? imax - 1) && (j <? jmax - 1))%bool blank);
  do d <- (if ij <? imax then put nreg d (ij + 1) blank else Ok d);
  do zv <- (if ij <? ijmax - 1 then get ijmax above (ij + 1) else Ok false);
  do d <- (if zv then change nreg d (ij + 1) (with_z true) else Ok d);
  do ibndy <- (if i =? n_ichunk s then Ok true else do c <- get nreg d ij; do c1 <- get nreg d (ij + 1); Ok (negb (eqb (c_zone c) (c_zone c1))));
  do jbndy <- (if j =? jchunk then Ok true else do c <- get nreg d ij; do cm <- get nreg d (ij + imax); Ok (negb (eqb (c_zone c) (c_zone cm))));
  do d <- (if ibndy then change nreg d ij (with_ib true) else Ok d);
  do d <- (if jbndy then change nreg d ij (with_jb true) else Ok d);
  do r <- (if j =? 0 then Ok (d, n_count s) else i_marks ij ibndy d (n_count s));
  do r <- (if (negb (i =? 0) && jbndy)%bool then j_marks ij (fst r) (snd r) else Ok r);
  let was := (i =? n_ichunk s) in
  Ok (mkInit (fst r) (snd r) (if was then n_ichunk s + (imax - 1) + (if imax <=? n_ichunk s then 1 else 0) else n_ichunk s) was).
(** 1076-1215: one row; the state of the rows is the data array, count, jchunk and started *)
Definition init_row (j : Z) (s : (Z -> cell) * Z * Z * bool) : res ((Z -> cell) * Z * Z * bool) :=
  let '(d, count, jchunk, started) := s in
  do r <- rounds (Z.to_nat imax) 0 (init_point j jchunk) (mkInit d count 0 false);
  let jchunk' := if j =? jchunk then jchunk + (jmax - 1) + (if jmax <=? jchunk then 1 else 0) else jchunk in
  if (negb (n_count r =? 0) && negb started)%bool then do d' <- change nreg (n_data r) (j * imax) (with_row true); Ok (d', n_count r, jchunk', true)
  else Ok (n_data r, n_count r, jchunk', started).

(** 196-218: the Csite structure; [t_saddle k] is None until SADDLE_SET, then Some SADDLE_GT0 *)
Record tracer := mkT { t_data : Z -> cell; t_saddle : Z -> option bool; t_count : Z; t_edge0 : Z; t_left0 : Z; t_edge00 : Z }.
Definition with_data (d : Z -> cell) (t : tracer) := mkT d (t_saddle t) (t_count t) (t_edge0 t) (t_left0 t) (t_edge00 t).
Definition with_count (n : Z) (t : tracer) := mkT (t_data t) (t_saddle t) n (t_edge0 t) (t_left0 t) (t_edge00 t).
(** 1069-1229; [mem] is what malloc returned, with arbitrary contents.  The saddle array is cleared when there is a start mark (1222); it is not used
    otherwise, so it is taken as cleared in any case. *)
Definition data_init (mem : Z -> cell) : res tracer :=
  do z0 <- get ijmax above 0;
  do d <- put nreg mem 0 (with_z z0 blank);
  do r <- rounds (Z.to_nat jmax) 0 init_row (d, 0, 0, false);
  let '(d, count, _, _) := r in
  do d <- (if count =? 0 then change nreg d 0 (with_done true) else Ok d);
  Ok (mkT d (fun _ => None) count 0 0 0).

(** *** zone_crosser, 322-531 *)
(** 276-285: FORWARD, POINT0, POINT1, IS_JEDGE, START_MARK *)
Definition forward (lf : Z) : Z := if 0 <? lf then (if 1 <? lf then 1 else - imax) else (if lf <? -1 then -1 else imax).
Definition point0 (edge fwd : Z) : Z := edge - (if 0 <? fwd then fwd else 0).
Definition point1 (edge fwd : Z) : Z := edge + (if fwd <? 0 then fwd else 0).
Definition is_jedge (lf : Z) : bool := if 0 <? lf then 1 <? lf else lf <? -1.
Definition marked (lf : Z) (c : cell) : bool := if 0 <? lf then (if 1 <? lf then c_j1 c else c_i1 c) else (if lf <? -1 then c_j0 c else c_i0 c).
Definition unmark (lf : Z) (c : cell) : cell := if 0 <? lf then (if 1 <? lf then with_j1 false c else with_i1 false c) else (if lf <? -1 then with_j0 false c else with_i0 false c).
(** 396-402, 405-410 and 508-513: erase a start mark, if it is there, and count it as visited *)
Definition erase (edge lf : Z) (t : tracer) : res tracer :=
  do c <- get nreg (t_data t) edge;
  if marked lf c then do d <- put nreg (t_data t) edge (unmark lf c); Ok (with_count (t_count t - 1) (with_data d t)) else Ok t.
(** 374-414: on an i-edge that is not the first point of the curve; the result is the state, the new value of [done] and whether the loop is left at
    once (an OPEN_END mark) *)
Definition check_edge (pass2 closing : bool) (edge lf fwd : Z) (t : tracer) : res (tracer * Z * bool) :=
  do c <- get nreg (t_data t) edge;
  if (negb pass2 && c_open c)%bool then Ok (t, 4, true)
  else if ((edge =? t_edge0 t) && (lf =? t_left0 t))%bool then Ok (t, if closing then 3 else 0, false)
  else if pass2 then Ok (t, 0, false)
  else do t1 <- erase edge (if 0 <? fwd then -1 else 1) t; do t2 <- erase edge (if 0 <? fwd then 1 else -1) t1; Ok (t2, 0, false).
(** 419-450: which way to turn in the zone; Some true is forward, Some false backward, None straight across *)
Definition turn (edge lf p0 p1 : Z) (t : tracer) : res (tracer * option bool) :=
  do c0 <- get nreg (t_data t) p0; do c2 <- get nreg (t_data t) (p1 + lf); do c3 <- get nreg (t_data t) (p0 + lf);
  let z0 := c_z c0 in let z1 := negb z0 in let z2 := c_z c2 in let z3 := c_z c3 in
  if eqb z0 z2 then
    if eqb z1 z3 then
      let zone := edge + (if 0 <? lf then lf else 0) in
      do s <- get ijmax (t_saddle t) zone;
      do r <- match s with
              | Some gt => Ok (t, gt)
              | None => if (inside ijmax p0 && inside ijmax (p0 + lf) && inside ijmax p1 && inside ijmax (p1 + lf))%bool then
                          let gt := centre p0 (p0 + lf) p1 (p1 + lf) in
                          do sd <- put ijmax (t_saddle t) zone (Some gt); Ok (mkT (t_data t) sd (t_count t) (t_edge0 t) (t_left0 t) (t_edge00 t), gt)
                        else Err IndexError
              end;
      Ok (fst r, Some (xorb z1 (snd r)))
    else Ok (t, Some true)
  else if eqb z1 z3 then Ok (t, Some false) else Ok (t, None).
(** 451-476: the next edge; the result is edge, lf, fwd, jedge *)
Definition next_edge (way : option bool) (edge lf fwd p0 p1 : Z) (jedge : bool) : Z * Z * Z * bool :=
  match way with
  | Some true => (p1 + (if 0 <? lf then lf else 0), fwd, - lf, negb jedge)
  | Some false => (p0 + (if 0 <? lf then lf else 0), - fwd, lf, negb jedge)
  | None => (edge + lf, lf, fwd, jedge)
  end.
(** 357-517.  [n] counts the points; on the second pass they are written to xcp and ycp, which have room for [room] more points: a point is given by the
    ends of its edge.  The result is the state, n, [done] and the points. *)
Fixpoint cross (fuel : nat) (pass2 closing : bool) (room : Z) (edge lf fwd : Z) (jedge : bool) (n done : Z) (points : list (Z * Z)) (t : tracer)
  : res (tracer * Z * Z * list (Z * Z)) :=
  match fuel with
  | O => Err OutOfFuel
  | S f =>
      let p0 := point0 edge fwd in let p1 := point1 edge fwd in
      do points <- (if pass2 then if (inside room n && inside ijmax p0 && inside ijmax p1)%bool then Ok (points ++ [(p0, p1)])%list else Err IndexError else Ok points);
      do r <- (if ((done =? 0) && negb jedge && negb (n =? 0))%bool then check_edge pass2 closing edge lf fwd t else Ok (t, done, false));
      let '(t, done, stop) := r in
      if stop then Ok (t, n, done, points) else
      let n := n + 1 in
      if negb (done =? 0) then Ok (t, n, done, points) else
      do w <- turn edge lf p0 p1 t; let '(t, way) := w in
      let '(edge, lf, fwd, jedge) := next_edge way edge lf fwd p0 p1 jedge in
      do c <- get nreg (t_data t) edge;
      if (if jedge then c_jb c else c_ib c) then
        let lf := - lf in let fwd := - fwd in
        do t <- (if (negb pass2 && (negb (edge =? t_edge0 t) || negb (lf =? t_left0 t)))%bool then erase edge lf t else Ok t);
        cross f pass2 closing room edge lf fwd jedge n 4 points t
      else cross f pass2 closing room edge lf fwd jedge n 0 points t
  end.
(** 330-338: from the start of the curve *)
Definition zone_crosser (fuel : nat) (pass2 closing : bool) (room : Z) (t : tracer) : res (tracer * Z * Z * list (Z * Z)) :=
  cross fuel pass2 closing room (t_edge0 t) (t_left0 t) (forward (t_left0 t)) (is_jedge (t_left0 t)) 0 0 [] t.

(** *** curve_tracer, 826-1010 *)
(** 872-873 and 924-925: while (!(data[edge0] & bit)) edge0 += step *)
Fixpoint seek (fuel : nat) (d : Z -> cell) (bit : cell -> bool) (step edge : Z) : res Z :=
  match fuel with
  | O => Err OutOfFuel
  | S f => do c <- get nreg d edge; if bit c then Ok edge else seek f d bit step (edge + step)
  end.
Definition any_start (c : cell) : bool := (c_i0 c || c_i1 c || c_j0 c || c_j1 c)%bool.
(** 852-859 *)
Definition two_starts (left0 : Z) (c : cell) : bool :=
  if left0 =? 1 then (c_i0 c || c_j1 c || c_j0 c)%bool else if left0 =? -1 then (c_j1 c || c_j0 c)%bool else if left0 =? imax then c_j0 c else false.
(** 861-896: where to look for the next start; None when there are no more curves *)
Definition next_place (fuel : nat) (pass2 two : bool) (t : tracer) : res (tracer * option Z) :=
  if (pass2 || (t_edge0 t =? 0))%bool then
    if two then Ok (t, Some (t_edge0 t))
    else
      do c <- get nreg (t_data t) (t_edge0 t);
      if c_done c then Ok (t, None)
      else
        do e <- seek fuel (t_data t) c_row imax (t_edge0 t);
        let e' := if e =? t_edge0 t then e + 1 else e in
        do d <- (if ((t_edge0 t =? 0) && negb pass2)%bool then change nreg (t_data t) (e' - Z.rem e' imax) (with_row false) else Ok (t_data t));
        Ok (with_data d t, Some e')
  else if t_count t <=? 0 then
    do d <- change nreg (t_data t) (t_edge00 t) (with_done true);
    Ok (mkT d (t_saddle t) (t_count t) 0 0 0, None)
  else Ok (t, Some (if two then t_edge0 t else t_edge0 t + 1)).
(** 898-940: the start found: edge0, left0 and level0 (true for 0, false for 2) *)
Definition next_start (fuel : nat) (two : bool) (edge0 left0 : Z) (d : Z -> cell) : res (Z * Z * bool) :=
  if two then
    do c <- get nreg d edge0;
    if ((left0 =? 1) && c_i0 c)%bool then Ok (edge0, -1, negb (c_ib c))
    else if (((left0 =? 1) || (left0 =? -1)) && c_j1 c)%bool then Ok (edge0, imax, false)
    else Ok (edge0, - imax, false)
  else
    do e <- seek fuel d any_start 1 edge0; do c <- get nreg d e;
    Ok (e, if c_i1 c then 1 else if c_i0 c then -1 else if c_j1 c then imax else - imax, if (c_i1 c || c_i0 c)%bool then negb (c_ib c) else false).
(** 826-1010.  The result is the state, n and the points of the curve; n = 0 when there are no more curves *)
Definition curve_tracer (fuel : nat) (pass2 : bool) (room : Z) (t : tracer) : res (tracer * Z * list (Z * Z)) :=
  do c <- get nreg (t_data t) (t_edge0 t);
  let two := two_starts (t_left0 t) c in
  do r <- next_place fuel pass2 two t;
  match r with
  | (t, None) => Ok (t, 0, [])
  | (t, Some place) =>
      do s <- next_start fuel two place (t_left0 t) (t_data t);
      let '(edge0, left0, level0) := s in
      let t := mkT (t_data t) (t_saddle t) (if pass2 then t_count t else t_count t - 1) edge0 left0 (t_edge00 t) in
      do r <- zone_crosser fuel pass2 level0 room t;
      let '(t, n, done, points) := r in
      if pass2 then Ok (t, n, points)
      else if ((3 <? done) && level0)%bool then
        do d <- change nreg (t_data t) edge0 (with_open true);
        do d <- change nreg d edge0 (if 0 <? left0 then with_i1 false else with_i0 false);
        Ok (with_data d t, - n, points)
      else
        do d <- change nreg (t_data t) (edge0 - Z.rem (edge0 - t_edge00 t) imax) (with_row true);
        Ok (mkT d (t_saddle t) (t_count t) (t_edge0 t) (t_left0 t) edge0, n, points)
  end.

(** *** cntr_trace, 1610-1714 *)
(** 1636-1652: the first pass, giving nparts and ntotal *)
Fixpoint first_pass (fuel inner : nat) (nparts ntotal : Z) (t : tracer) : res (tracer * Z * Z) :=
  match fuel with
  | O => Err OutOfFuel
  | S f =>
      do r <- curve_tracer inner false 0 t; let '(t, n, _) := r in
      if n =? 0 then Ok (t, nparts, ntotal) else if 0 <? n then first_pass f inner (nparts + 1) (ntotal + n) t else first_pass f inner nparts (ntotal - n) t
  end.
(** 1659-1692: the second pass; nseg0 has [nparts] entries, xcp and ycp have [room] entries left.  RuntimeError is modelled as [Err ValueError]. *)
Fixpoint second_pass (fuel inner : nat) (nparts room : Z) (curves : list (list (Z * Z))) (t : tracer) : res (list (list (Z * Z))) :=
  match fuel with
  | O => Err OutOfFuel
  | S f =>
      do r <- curve_tracer inner true room t; let '(t, n, points) := r in
      if room <? n then Err ValueError
      else if n =? 0 then Ok curves
      else if 0 <? n then
        if inside nparts (Z.of_nat (length curves)) then second_pass f inner nparts (room - n) (curves ++ [points])%list t else Err IndexError
      else Err ValueError
  end.
(** 1627-1693; the curves are passed on as many as nparts says: fewer would mean that entries of nseg0 are read that have not been written *)
Definition cntr_trace (fuel : nat) (mem : Z -> cell) : res (list (list (Z * Z))) :=
  do t <- data_init mem;
  do r <- first_pass fuel fuel 0 0 t; let '(t, nparts, ntotal) := r in
  do curves <- second_pass fuel fuel nparts ntotal [] t;
  if Z.of_nat (length curves) =? nparts then Ok curves else Err IndexError.
End Tracer.


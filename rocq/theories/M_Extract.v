(** extract_contours, /repo/trackeddy/geometry.py 9-42, with the Python interface of /repo/trackeddy/src/cntr.c: Cntr_init (1791-1874), Cntr_trace
    (1876-1892), the position of a vertex (367-371), reorder (1361-1485) and build_cntr_list_v2 (1490-1547).
    The numbers are arbitrary: [num] with its operations stands for double (then the comparisons follow IEEE, so that NaN is not above anything) or for
    the reals. *)
From Verif Require Import M_Base M_Cntr.

Section Extract.
Variable num : Type.
Variables add sub mul div : num -> num -> num.
Variable four : num.
Variable gtb : num -> num -> bool.
Variable eqn : num -> num -> bool.
(** A two-dimensional array, contents in C order; the conversion of the arguments to arrays of double and their TypeError are left out *)
Record mat := mkMat { m_rows : Z; m_cols : Z; m_at : Z -> num }.

(** Cntr_init, 1835-1845: iMax and jMax *)
Definition cntr_init (x y z : mat) : res (Z * Z) :=
  let imax := m_cols z in let jmax := m_rows z in
  if ((m_rows x =? jmax) && (m_cols x =? imax) && (m_rows y =? jmax) && (m_cols y =? imax))%bool then Ok (imax, jmax) else Err ValueError.
(** data_init 1069-1072, 1097-1098: the bit of a point (with zlevel[0] = zlevel[1], 1627-1628: both comparisons are the same) *)
Definition above_of (z : mat) (level : num) (k : Z) : bool := gtb (m_at z k) level.
(** 437-438: the middle of a zone *)
Definition centre_of (z : mat) (level : num) (p q r s : Z) : bool := gtb (div (add (add (add (m_at z p) (m_at z q)) (m_at z r)) (m_at z s)) four) level.
(** 368-370: the vertex on the edge from p0 to p1 *)
Definition vertex (x y z : mat) (level : num) (e : Z * Z) : num * num :=
  let (p0, p1) := e in
  let zcp := div (sub level (m_at z p0)) (sub (m_at z p1) (m_at z p0)) in
  (add (mul zcp (sub (m_at x p1) (m_at x p0))) (m_at x p0), add (mul zcp (sub (m_at y p1) (m_at y p0))) (m_at y p0)).

(** reorder, 1361-1485.  The points of one curve with their kinds; kind_zone is 0, kind_slit_up is 3 (287) *)
Definition kind_zone : Z := 0.
Definition kind_slit_up : Z := 3.
Definition moveto : Z := 1.
Definition lineto : Z := 2.
(** 1379-1405: the segments i0, i1; [None] when the arrays are full (1391-1395).  [i] is the index, [start] the start of the current segment *)
Fixpoint segments_from (npts maxnsegs i iseg : Z) (start : option Z) (kinds : list Z) : option (list (Z * Z)) :=
  match kinds with
  | [] => Some []
  | k :: rest =>
      match start with
      | Some i0 => if ((kind_slit_up <=? k) || (i =? npts - 1))%bool
                   then if iseg + 1 =? maxnsegs then None else option_map (cons (i0, i)) (segments_from npts maxnsegs (i + 1) (iseg + 1) None rest)
                   else segments_from npts maxnsegs (i + 1) iseg (Some i0) rest
      | None => if ((k <? kind_slit_up) && (i <? npts - 1))%bool then segments_from npts maxnsegs (i + 1) iseg (Some i) rest else segments_from npts maxnsegs (i + 1) iseg None rest
      end
  end.
Definition same_point (p q : num * num) : bool := (eqn (fst p) (fst q) && eqn (snd p) (snd q))%bool.
(** 1408-1442: the first segment takes the later ones that continue it; the result is that sub-path and the segments left for the following ones *)
Fixpoint gather (at_ : Z -> num * num) (fin : num * num) (segs : list (Z * Z)) : list (Z * Z) * list (Z * Z) :=
  match segs with
  | [] => ([], [])
  | (i0, i1) :: rest => if same_point fin (at_ i0) then let (a, b) := gather at_ (at_ i1) rest in ((i0, i1) :: a, b) else let (a, b) := gather at_ fin rest in (a, (i0, i1) :: b)
  end.
Fixpoint subpaths (fuel : nat) (at_ : Z -> num * num) (segs : list (Z * Z)) : list (list (Z * Z)) :=
  match fuel, segs with
  | S f, (i0, i1) :: rest => let (a, b) := gather at_ (at_ i1) rest in ((i0, i1) :: a) :: subpaths f at_ b
  | _, _ => []
  end.
(** 1444-1477: vertices and codes; the first point of a later segment of a sub-path is a repetition and is skipped *)
Definition run (at_ : Z -> num * num) (lo hi : Z) : list (num * num) := map (fun k => at_ (lo + Z.of_nat k)) (seq 0 (Z.to_nat (hi - lo + 1))).
Definition path (at_ : Z -> num * num) (sp : list (Z * Z)) : list (num * num) * list Z :=
  match sp with
  | [] => ([], [])
  | (i0, i1) :: rest => let v := (run at_ i0 i1 ++ flat_map (fun s => run at_ (fst s + 1) (snd s)) rest)%list in (v, match v with [] => [] | _ :: t => moveto :: map (fun _ => lineto) t end)
  end.
Definition reorder (at_ : Z -> num * num) (npts : Z) (kinds : list Z) : res (list (num * num) * list Z) :=
  match segments_from npts (npts / 2 + 1) 0 0 None kinds with
  | None => Err ValueError
  | Some segs => let ps := map (path at_) (subpaths (length segs) at_ segs) in
                 let v := flat_map fst ps in
                 (* 1470-1474: more points than there is room for; they have been written by then *)
                 if npts <? Z.of_nat (length v) then Err IndexError else Ok (v, flat_map snd ps)
  end.
(** build_cntr_list_v2, 1490-1547, for curves all of whose points are of kind kind_zone (371): first all vertex arrays, then all code arrays *)
Inductive item := Verts (v : list (num * num)) | Codes (c : list Z).
Definition point_at (l : list (num * num)) (dflt : num * num) (k : Z) : num * num := nth (Z.to_nat k) l dflt.
Fixpoint build (curves : list (list (num * num))) : res (list item * list item) :=
  match curves with
  | [] => Ok ([], [])
  | [] :: rest => do r <- build rest; Ok (Verts [] :: fst r, Codes [] :: snd r)
  | (v :: l) :: rest =>
      do p <- reorder (point_at (v :: l) v) (Z.of_nat (length (v :: l))) (map (fun _ => kind_zone) (v :: l));
      do r <- build rest; Ok (Verts (fst p) :: fst r, Codes (snd p) :: snd r)
  end.
(** Cntr.trace(level) for one level: 1876-1892 and 1610-1714 *)
Definition trace (fuel : nat) (mem : Z -> cell) (x y z : mat) (level : num) : res (list item) :=
  do d <- cntr_init x y z;
  do curves <- cntr_trace (fst d) (snd d) (above_of z level) (centre_of z level) fuel mem;
  do r <- build (map (map (vertex x y z level)) curves);
  Ok (fst r ++ snd r)%list.
(** geometry.py 31-42 *)
Definition extract_contours (fuel : nat) (mem : Z -> cell) (x y data : mat) (level : num) : res (list item * list item) :=
  do r <- trace fuel mem x y data level;
  let nseg := Z.to_nat (Z.of_nat (length r) / 2) in
  Ok (firstn nseg r, skipn nseg r).
End Extract.

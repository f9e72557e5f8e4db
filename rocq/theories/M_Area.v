(** area_latlon_polygon, /repo/trackeddy/geometry.py 440-470, over any type of numbers. *)
From Verif Require Import M_Base.
Local Open Scope list_scope.

(** The floating-point operations the function uses. *)
Record fops (F : Type) := mkFops {
  f_cst : Q -> F;                      (* a literal *)
  f_pi : F;                            (* np.pi *)
  f_add : F -> F -> F; f_sub : F -> F -> F; f_mul : F -> F -> F; f_div : F -> F -> F;
  f_mod : F -> F -> F;                 (* Python/numpy %, result in [0, m) for m > 0 *)
  f_sin : F -> F; f_cos : F -> F; f_sqrt : F -> F; f_abs : F -> F;
  f_atan2 : F -> F -> F }.
Arguments f_cst {F}. Arguments f_pi {F}. Arguments f_add {F}. Arguments f_sub {F}. Arguments f_mul {F}. Arguments f_div {F}.
Arguments f_mod {F}. Arguments f_sin {F}. Arguments f_cos {F}. Arguments f_sqrt {F}. Arguments f_abs {F}. Arguments f_atan2 {F}.

Section Area.
Context {F : Type} (o : fops F).
Notation c_ q := (f_cst o q).
Infix "[+]" := (f_add o) (at level 50, left associativity).
Infix "[-]" := (f_sub o) (at level 50, left associativity).
Infix "[*]" := (f_mul o) (at level 40, left associativity).
Infix "[/]" := (f_div o) (at level 40, left associativity).

(** [np.deg2rad] *)
Definition deg2rad (x : F) : F := x [*] (f_pi o [/] c_ 180).
Definition sq (x : F) : F := x [*] x.

(** 449-450: distance of a vertex from the point (0, 0), as an angle *)
Definition colat (p : F * F) : F :=
  let lon := deg2rad (fst p) in let lat := deg2rad (snd p) in
  let a := sq (f_sin o (lat [/] c_ 2)) [+] f_cos o lat [*] sq (f_sin o (lon [/] c_ 2)) in
  c_ 2 [*] f_atan2 o (f_sqrt o a) (f_sqrt o (c_ 1 [-] a)).
(** 452: azimuth of a vertex seen from the point (0, 0) *)
Definition azimuth (p : F * F) : F :=
  let lon := deg2rad (fst p) in let lat := deg2rad (snd p) in
  f_mod o (f_atan2 o (f_cos o lat [*] f_sin o lon) (f_sin o lat)) (c_ 2 [*] f_pi o).
(** 456-463: contribution of one segment *)
Definition integrand (p q : F * F) : F :=
  let daz := azimuth q [-] azimuth p in
  let daz := f_mod o (daz [+] f_pi o) (c_ 2 [*] f_pi o) [-] f_pi o in
  let delta := (colat q [-] colat p) [/] c_ 2 in
  (c_ 1 [-] f_cos o (colat p [+] delta)) [*] daz.
Fixpoint integrands (l : list (F * F)) : list F :=
  match l with
  | p :: ((q :: _) as t) => integrand p q :: integrands t
  | _ => []
  end.
(** 466-470; the built-in [sum] starts from 0. *)
Definition area_latlon_polygon (l : list (F * F)) : F :=
  let area := f_abs o (fold_left (f_add o) (integrands l) (c_ 0)) [/] (c_ 4 [*] f_pi o) in
  (area [*] c_ 4 [*] f_pi o [*] sq (c_ 6378137)) [*] c_ (1 # 1000000).
End Area.

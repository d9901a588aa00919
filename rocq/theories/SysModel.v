(** The reciprocal lattice and the coordinate system of the sample used for resolution: neutronpy/instrument/tools.py
    (_scalar, _star, _modvec) and TripleAxisInstrument.get_lattice, _StandardSystem, over the reals. *)
From Coq Require Import Reals.
From Verif Require Import Base LinAlg LatticeModel.
Local Open Scope R_scope.

(** The Sample objects passed around here carry their angles in radians. *)
Record rlat := mkRL { ra : R; rb : R; rc : R; ralpha : R; rbeta : R; rgamma : R }.

(** tools.py:74-81 *)
Definition scalar (v w : v3) (l : rlat) : R :=
  vx v * vx w * ra l ^ 2 + vy v * vy w * rb l ^ 2 + vz v * vz w * rc l ^ 2
  + (vx v * vy w + vx w * vy v) * ra l * rb l * cos (rgamma l)
  + (vx v * vz w + vx w * vz v) * ra l * rc l * cos (rbeta l)
  + (vz v * vy w + vz w * vy v) * rc l * rb l * cos (ralpha l).
(** tools.py:148; the square root of a negative number is nan in numpy and 0 here. *)
Definition modvec (v : v3) (l : rlat) : R := sqrt (scalar v v l).

(** tools.py:105-109 *)
Definition star_V (l : rlat) : R :=
  2 * ra l * rb l * rc l *
  sqrt (sin ((ralpha l + rbeta l + rgamma l) / 2) * sin ((- ralpha l + rbeta l + rgamma l) / 2)
        * sin ((ralpha l - rbeta l + rgamma l) / 2) * sin ((ralpha l + rbeta l - rgamma l) / 2)).
(** tools.py:105-121 *)
Definition star (l : rlat) : R * R * rlat :=
  let V := star_V l in
  (V, (2 * PI) ^ 3 / V,
   mkRL (2 * PI * rb l * rc l * sin (ralpha l) / V)
        (2 * PI * ra l * rc l * sin (rbeta l) / V)
        (2 * PI * rb l * ra l * sin (rgamma l) / V)
        (acos ((cos (rbeta l) * cos (rgamma l) - cos (ralpha l)) / (sin (rbeta l) * sin (rgamma l))))
        (acos ((cos (ralpha l) * cos (rgamma l) - cos (rbeta l)) / (sin (ralpha l) * sin (rgamma l))))
        (acos ((cos (ralpha l) * cos (rbeta l) - cos (rgamma l)) / (sin (ralpha l) * sin (rbeta l))))).

(** tas_instrument.py:474-482: the direct lattice with angles in radians and the reciprocal one. *)
Definition get_lattice (s : lattice) : rlat * rlat :=
  let l := mkRL (la s) (lb s) (lc s) (rad (alpha s)) (rad (beta s)) (rad (gamma s)) in
  (l, snd (star l)).

(** tas_instrument.py:484-541.  Ok None: the components are nan, since orient1 has length 0 (nan compares false with 0, so
    no exception is raised).  In floating point the test mody <= 0 seldom holds exactly; here it is exact. *)
Definition standard_system (s : lattice) (orient1 orient2 : v3) : res (option (v3 * v3 * v3)) :=
  let r := snd (get_lattice s) in
  let modx := modvec orient1 r in
  if Req_EM_T modx 0 then Ok None
  else
    let x := vscal (/ modx) orient1 in
    let y := vsub orient2 (vscal (scalar orient2 x r) x) in
    let mody := modvec y r in
    if Rle_dec mody 0 then Err ScatteringTriangleError
    else
      let y := vscal (/ mody) y in
      let z := V (vy x * vz y - vy y * vz x) (vz x * vx y - vz y * vx x) (- vy x * vx y + vy y * vx x) in
      let z := vsub z (vscal (scalar z x r) x) in
      let z := vsub z (vscal (scalar z y r) y) in
      Ok (Some (x, y, vscal (/ modvec z r) z)).

(** tas_instrument.py:965-968, one point: the length of the momentum transfer and the first two components of its
    direction in the system above; nan at Q = 0 ([None]). *)
Definition in_system (s : lattice) (orient1 orient2 Q : v3) : res (option (R * R * R)) :=
  let r := snd (get_lattice s) in
  bind (standard_system s orient1 orient2) (fun o =>
  match o with
  | None => Ok None
  | Some (x, y, z) =>
      let q := modvec Q r in
      if Req_EM_T q 0 then Ok None
      else let uq := V (vx Q / q) (vy Q / q) (vz Q / q) in Ok (Some (q, scalar x uq r, scalar y uq r))
  end).

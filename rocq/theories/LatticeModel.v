(** Unit cells and their reciprocal lattice: /repo/neutronpy/crystal/lattice.py and the orientation
    matrix of /repo/neutronpy/crystal/sample.py and crystal/tools.py, over the reals. *)
From Coq Require Import Reals.
From Verif Require Import LinAlg.
Local Open Scope R_scope.

(** lattice.py:77-79: lengths in Angstrom, angles in degrees. *)
Record lattice := mkL { la : R; lb : R; lc : R; alpha : R; beta : R; gamma : R }.

(** numpy deg2rad and rad2deg. *)
Definition rad (d : R) : R := d * PI / 180.
Definition deg (r : R) : R := r * 180 / PI.

(** lattice.py:287-298. *)
Definition G (l : lattice) : m3 :=
  let ca := cos (rad (alpha l)) in let cb := cos (rad (beta l)) in let cg := cos (rad (gamma l)) in
  M (la l ^ 2) (la l * lb l * cg) (la l * lc l * cb)
    (la l * lb l * cg) (lb l ^ 2) (lb l * lc l * ca)
    (la l * lc l * cb) (lb l * lc l * ca) (lc l ^ 2).
(** lattice.py:300-306. *)
Definition Gstar (l : lattice) : m3 := mscal (4 * PI ^ 2) (inv (G l)).
(** lattice.py:273-285; numpy's square root of a negative number is nan, Coq's is 0. *)
Definition volume (l : lattice) : R := sqrt (det (G l)).
Definition reciprocal_volume (l : lattice) : R := sqrt (det (Gstar l)).
(** lattice.py:163-179. *)
Definition astar (l : lattice) : R := lb l * lc l * sin (rad (alpha l)) / volume l * 2 * PI.
Definition bstar (l : lattice) : R := la l * lc l * sin (rad (beta l)) / volume l * 2 * PI.
Definition cstar (l : lattice) : R := la l * lb l * sin (rad (gamma l)) / volume l * 2 * PI.
(** lattice.py:181-204, in radians; arccos of an argument outside [-1, 1] is nan in numpy. *)
Definition star_angle (x y z : R) : R := acos ((cos x * cos y - cos z) / (sin x * sin y)).
Definition alphastar_rad (l : lattice) : R := star_angle (rad (beta l)) (rad (gamma l)) (rad (alpha l)).
Definition betastar_rad (l : lattice) : R := star_angle (rad (alpha l)) (rad (gamma l)) (rad (beta l)).
Definition gammastar_rad (l : lattice) : R := star_angle (rad (alpha l)) (rad (beta l)) (rad (gamma l)).
(** lattice.py:206-222. *)
Definition alphastar (l : lattice) : R := deg (alphastar_rad l).
Definition betastar (l : lattice) : R := deg (betastar_rad l).
Definition gammastar (l : lattice) : R := deg (gammastar_rad l).
(** lattice.py:308-317; the last entry uses the sine of the reciprocal angle alpha*. *)
Definition Bmatrix (l : lattice) : m3 :=
  M (astar l) (bstar l * cos (gammastar_rad l)) (cstar l * cos (betastar_rad l))
    0 (bstar l * sin (gammastar_rad l)) (- cstar l * sin (betastar_rad l) * cos (rad (alpha l)))
    0 0 (cstar l * sin (betastar_rad l) * sin (alphastar_rad l)).

(** lattice.py:319-335. *)
Definition get_d_spacing (l : lattice) (hkl : v3) : R :=
  1 / sqrt (dot hkl (mv (mscal (/ PI ^ 2) (mscal (/ 4) (Gstar l))) hkl)).
(** lattice.py:384-401. *)
Definition get_q (l : lattice) (hkl : v3) : R := 2 * PI / get_d_spacing l hkl.
(** lattice.py:362-382; nan ([None]) when the sine would exceed 1. *)
Definition get_two_theta (l : lattice) (hkl : v3) (wavelength : R) : option R :=
  let s := wavelength / 2 / get_d_spacing l hkl in
  if Rle_dec s 1 then if Rle_dec (-1) s then Some (2 * deg (asin s)) else None else None.
(** lattice.py:337-360; np.inner(v, M) is M v. *)
Definition get_angle_between_planes (l : lattice) (v w : v3) : R :=
  let f a b := dot (mv (Gstar l) a) b in
  deg (acos (f v w / sqrt (f v v) / sqrt (f w w))).

(** crystal/tools.py:5-24 for two rows: orthogonalise the second against the first, normalise both.
    For a zero or collinear input numpy produces nan; [None] here. *)
Definition gram_schmidt (u v : v3) : option (v3 * v3) :=
  let w := vsub v (vscal (dot v u / norm u ^ 2) u) in
  if Req_EM_T (norm u) 0 then None
  else if Req_EM_T (norm w) 0 then None
  else Some (vscal (1 / norm u) u, vscal (1 / norm w) w).
(** sample.py:196-202. *)
Definition Umatrix (u v : v3) : option m3 :=
  match gram_schmidt u v with
  | Some (e1, e2) => Some (rows3 e1 e2 (cross e1 e2))
  | None => None
  end.
(** sample.py:204-208. *)
Definition UBmatrix (l : lattice) (u v : v3) : option m3 :=
  match Umatrix u v with Some U => Some (mmul U (Bmatrix l)) | None => None end.
(** sample.py:210-225. *)
Definition get_phi (l : lattice) (u v Q : v3) : R := get_angle_between_planes l Q (cross u v).

(** Peak profiles and physical models: neutronpy/functions.py and neutronpy/models.py, over the reals.
    A parameter vector is a list; a position is one entry of the input array (the functions act entry by entry).
    [None] stands for nan or infinity.  Integer arrays, into which numpy refuses to add floats, are not modelled. *)
From Coq Require Import String List Reals.
From Coquelicot Require Import Coquelicot.
From Verif Require Import Base.
Import ListNotations.
Local Open Scope R_scope.

Definition par (p : list R) (i : nat) : R := nth i p 0.
Definition odiv (x y : R) : option R := if Req_EM_T y 0 then None else Some (x / y).
Definition oplus (a b : option R) : option R := match a, b with Some x, Some y => Some (x + y) | _, _ => None end.
(** The loop shared by all profiles: the background plus one term for each complete group of [k] parameters;
    p[0] and p[1] must exist. *)
Definition peaks (k : nat) (background : R) (term : nat -> option R) (p : list R) : res (option R) :=
  if Nat.ltb (List.length p) 2 then Err IndexError
  else Ok (fold_left (fun f i => oplus f (term i)) (seq 0 ((List.length p - 2) / k)) (Some background)).

(** FWHM to standard deviation: functions.py:85, 164-165, 306, 439. *)
Definition sigma_of (fwhm : R) : R := fwhm / (2 * sqrt (2 * ln 2)).

(** functions.py:83-89 *)
Definition gaussian (p : list R) (q : R) : res (option R) :=
  peaks 3 (par p 0 + par p 1 * q) (fun i =>
    let sigma := sigma_of (par p (3 * i + 4)) in
    if Req_EM_T sigma 0 then None
    else Some (par p (3 * i + 2) / (sigma * sqrt (2 * PI)) * exp (- (q - par p (3 * i + 3)) ^ 2 / (2 * sigma ^ 2)))) p.

(** functions.py:159-170 *)
Definition gaussian2d (p : list R) (x y : R) : res (option R) :=
  peaks 5 (par p 0 + par p 1 * (x + y)) (fun i =>
    let sx := sigma_of (par p (5 * i + 5)) in
    let sy := sigma_of (par p (5 * i + 6)) in
    if Req_EM_T (sx * sy) 0 then None
    else Some (par p (5 * i + 2) / (sx * sy * 2 * PI) *
      exp (- ((x - par p (5 * i + 3)) ^ 2 / (2 * sx ^ 2) + (y - par p (5 * i + 4)) ^ 2 / (2 * sy ^ 2))))) p.

(** functions.py:235-240 *)
Definition lorentzian (p : list R) (q : R) : res (option R) :=
  peaks 3 (par p 0 + par p 1 * q) (fun i =>
    odiv (par p (3 * i + 2) / PI * (1 / 2) * par p (3 * i + 4)) ((q - par p (3 * i + 3)) ^ 2 + (1 / 2 * par p (3 * i + 4)) ^ 2)) p.

(** Real part of scipy.special.wofz at x + i y for y > 0, as the integral (y / pi) exp(-t^2) / ((x - t)^2 + y^2) over the line. *)
Definition re_wofz (x y : R) : R := real (Lim (fun T => RInt (fun t => y / PI * exp (- (t * t)) / ((x - t) ^ 2 + y ^ 2)) (- T) T) p_infty).
(** functions.py:304-315, for positive Gaussian and Lorentzian widths ([None] otherwise: nan for a zero Gaussian
    width, and values of wofz outside the upper half plane, which are not modelled). *)
Definition voigt (p : list R) (q : R) : res (option R) :=
  peaks 4 (par p 0 + par p 1 * q) (fun i =>
    let sigma := sigma_of (par p (4 * i + 5)) in
    let gamma := par p (4 * i + 4) / 2 in
    if Rlt_dec 0 sigma then if Rlt_dec 0 gamma then
      Some (par p (4 * i + 2) / (sigma * sqrt (2 * PI)) * re_wofz ((q - par p (4 * i + 3)) / (sigma * sqrt 2)) (gamma / (sigma * sqrt 2)))
    else None else None) p.

(** functions.py:368-381.  np.sqrt of a negative number is nan. *)
Definition resolution (p : list R) (x y : R) (mode : string) : res (option R) :=
  if String.eqb mode "gaussian" then
    peaks 7 (par p 0 + par p 1 * (x + y)) (fun i =>
      let xx := par p (7 * i + 6) in let yy := par p (7 * i + 7) in let xy := par p (7 * i + 8) in let r0 := par p (7 * i + 5) in
      if Rlt_dec 0 xx then if Rle_dec 0 (yy - xy ^ 2 / xx) then if Req_EM_T r0 0 then None else
        let n := sqrt xx * sqrt (yy - xy ^ 2 / xx) / (2 * PI * r0) in
        Some (par p (7 * i + 2) * r0 * n * exp (-1 / 2 * (xx * (x - par p (7 * i + 3)) ^ 2 + yy * (y - par p (7 * i + 4)) ^ 2 + 2 * xy * (x - par p (7 * i + 3)) * (y - par p (7 * i + 4)))))
      else None else None) p
  else peaks 7 (par p 0 + par p 1 * (x + y)) (fun _ => Some 0) p.

(** scipy.special.erf *)
Definition erf (z : R) : R := 2 / sqrt PI * RInt (fun t => exp (- (t * t))) 0 z.
(** functions.py:433-448 *)
Definition gaussian_ring (p : list R) (x y : R) : res (option R) :=
  peaks 6 (par p 0 + par p 1 * (x + y)) (fun i =>
    let r0 := par p (6 * i + 5) in let ecc := par p (6 * i + 6) in let fwhm := par p (6 * i + 7) in
    let sigma := sigma_of fwhm in
    if Req_EM_T sigma 0 then None else if Req_EM_T ecc 0 then None else
    let n := 2 * PI * (exp (- r0 ^ 2 / (2 * sigma ^ 2)) * sigma ^ 2 + sqrt (PI / 2) * r0 * sigma * (1 + erf (r0 / (sqrt 2 * sigma)))) / ecc in
    if Req_EM_T n 0 then None else
    Some (par p (6 * i + 2) / n * exp (-4 * ln 2 * (sqrt ((x - par p (6 * i + 3)) ^ 2 + ecc ^ 2 * (y - par p (6 * i + 4)) ^ 2) - r0) ^ 2 / fwhm ^ 2))) p.

(** Reading p[0] .. p[n-1]. *)
Definition need {A} (n : nat) (p : list R) (v : A) : res A := if Nat.ltb (List.length p) n then Err IndexError else Ok v.
(** models.py:35 *)
Definition sho (p : list R) (t : R) : res R := need 4 p (par p 0 + par p 1 * cos (par p 2 * t - par p 3)).
(** models.py:67 *)
Definition dho (p : list R) (t : R) : res R := bind (need 5 p tt) (fun _ => bind (sho [0; par p 1; par p 2; par p 3] t) (fun y => Ok (par p 0 + exp (- par p 4 * t / 2) * y))).
(** models.py:94; nan for a negative p[0]. *)
Definition acoustic (p : list R) (x : R) : res (option R) := need 2 p (if Rle_dec 0 (4 * par p 0) then Some (sqrt (4 * par p 0) * Rabs (sin (par p 1 * x))) else None).
(** models.py:127 *)
Definition ferro (p : list R) (x : R) : res R := need 2 p (4 * par p 0 * (1 - cos (par p 1 * x))).
(** models.py:153 *)
Definition antiferro (p : list R) (x : R) : res R := need 2 p (par p 0 * Rabs (sin (par p 1 * x))).

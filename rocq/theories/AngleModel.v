(** Angles of a triple-axis spectrometer: TripleAxisInstrument.get_angles_and_Q,
    neutronpy/instrument/tas_instrument.py:999-1091, over the reals.
    A number that is nan or infinite is [None]: every infinity that can arise becomes nan in the next arcsin or arccos.
    The nested list of line 1046 holds numbers and arrays of one number; it is taken as an array of numbers. *)
From Coq Require Import List ZArith Reals.
From Verif Require Import Base LinAlg LatticeModel EnergyModel TasModel.
From Verif Require MatModel.
Import ListNotations.
Local Open Scope R_scope.

Definition obind {A B} (x : option A) (f : A -> option B) : option B := match x with Some a => f a | None => None end.
(** numpy's sqrt, arcsin, arccos and division for numbers that may be nan. *)
Definition osqrt (x : R) : option R := if Rle_dec 0 x then Some (sqrt x) else None.
Definition oasin (x : R) : option R := if Rle_dec (Rabs x) 1 then Some (asin x) else None.
Definition oacos (x : R) : option R := if Rle_dec (Rabs x) 1 then Some (acos x) else None.
Definition odiv (x y : R) : option R := if Req_EM_T y 0 then None else Some (x / y).
Definition ofl (x : fl) : option R := match x with Fin r => Some r | _ => None end.

(** tas_instrument.py:1019-1022 *)
Definition fx_of (t : tas) : R :=
  match t_infin t with
  | None => 2
  | Some i => (if Req_EM_T i (-1) then 2 else 0) + (if Req_EM_T i 1 then 1 else 0)
  end.
(** tas_instrument.py:1024-1027: the lengths of the wave vectors before and after the sample. *)
Definition f_conv : R := 4826 / 10000.
Definition ki_of (c : consts) (t : tas) (w : R) : option R :=
  obind (ofl (wavevec (values_of c (t_efixed t)))) (fun k => osqrt (k ^ 2 + (fx_of t - 1) * f_conv * w)).
Definition kf_of (c : consts) (t : tas) (w : R) : option R :=
  obind (ofl (wavevec (values_of c (t_efixed t)))) (fun k => osqrt (k ^ 2 - (2 - fx_of t) * f_conv * w)).

(** tas_instrument.py:1031-1049: a, alpha, cosa, sina, cc, b, cosb, sinb, and bb after its transposition. *)
Definition bb (l : lattice) : option m3 :=
  let a0 := la l / (2 * PI) in let a1 := lb l / (2 * PI) in let a2 := lc l / (2 * PI) in
  let c0 := cos (rad (alpha l)) in let c1 := cos (rad (beta l)) in let c2 := cos (rad (gamma l)) in
  let s0 := sin (rad (alpha l)) in let s1 := sin (rad (beta l)) in let s2 := sin (rad (gamma l)) in
  obind (osqrt (1 + 2 * (c0 * c1 * c2) - (c0 * c0 + c1 * c1 + c2 * c2))) (fun cc =>
  obind (odiv s0 (a0 * cc)) (fun b0 => obind (odiv s1 (a1 * cc)) (fun b1 => obind (odiv s2 (a2 * cc)) (fun b2 =>
  obind (odiv (c2 * c0 - c1) (s2 * s0)) (fun cosb1 => obind (odiv (c0 * c1 - c2) (s0 * s1)) (fun cosb2 =>
  obind (osqrt (1 - cosb1 * cosb1)) (fun sinb1 => obind (osqrt (1 - cosb2 * cosb2)) (fun sinb2 =>
  obind (odiv 1 a2) (fun z =>
  Some (M b0 (b1 * cosb2) (b2 * cosb1)
          0 (b1 * sinb2) (- b2 * sinb1 * c0)
          0 0 z)))))))))).

(** tas_instrument.py:1051-1058: the rows of vv; the third is the product of the first two, then the second that of the third
    and the first. *)
Definition frame (b : m3) (o1 o2 : v3) : v3 * v3 * v3 :=
  let v0 := mv b o1 in let v1 := mv b o2 in let v2 := cross v0 v1 in (v0, cross v2 v0, v2).
(** tas_instrument.py:1060-1065: every column of vv is divided by its length (sum over axis 0), and vv.T * bb multiplies entry by
    entry; the product of the result with (h, k, l). *)
Definition q_of (b : m3) (o1 o2 hkl : v3) : option v3 :=
  let '(v0, v1, v2) := frame b o1 o2 in
  let col p := sqrt (p v0 * p v0 + p v1 * p v1 + p v2 * p v2) in
  let row p b1 b2 b3 := obind (odiv (p v0) (col p)) (fun n0 => obind (odiv (p v1) (col p)) (fun n1 => obind (odiv (p v2) (col p)) (fun n2 =>
    Some (vx hkl * (n0 * b1) + vy hkl * (n1 * b2) + vz hkl * (n2 * b3))))) in
  obind (row vx (m11 b) (m12 b) (m13 b)) (fun x => obind (row vy (m21 b) (m22 b) (m23 b)) (fun y => obind (row vz (m31 b) (m32 b) (m33 b)) (fun z => Some (V x y z)))).
Definition qt (l : lattice) (o1 o2 hkl : v3) : option v3 := obind (bb l) (fun b => q_of b o1 o2 hkl).

(** tas_instrument.py:1073-1076: 2 pi / tau is a division of Python numbers. *)
Definition spacing (tau : R) : res R := if Req_EM_T tau 0 then Err ZeroDivisionError else Ok (2 * PI / tau).
Definition bragg (dir d : R) (k : option R) : option R :=
  obind k (fun k => obind (odiv PI (d * k)) (fun x => obind (oasin x) (fun a => Some (dir * a)))).
(** tas_instrument.py:1067-1068 *)
Definition q_len (q : v3) : R := sqrt (vx q ^ 2 + vy q ^ 2 + vz q ^ 2).
(** tas_instrument.py:1077, 1085 *)
Definition a4_of (ss ki kf Q : R) : option R :=
  obind (odiv (ki ^ 2 + kf ^ 2 - Q ^ 2) (2 * ki * kf)) (fun x => obind (oacos x) (fun a => Some (2 * (ss * (5 / 10) * a)))).
(** tas_instrument.py:1079-1081 *)
Definition a3_of (ss ki kf Q : R) (q : v3) : option R :=
  obind (odiv (kf * kf - Q * Q - ki * ki) (-2 * (Q * ki))) (fun x => obind (oacos x) (fun a => Some (ss * (- MatModel.atan2 (vy q) (vx q) - a)))).

Definition odeg (x : option R) : option R := option_map deg x.
Definition twice (x : option R) : option R := option_map (Rmult 2) x.

(** tas_instrument.py:999-1091: the six angles A1 to A6, in degrees, and the length of Q. *)
Definition get_angles_and_Q (c : consts) (t : tas) (l : lattice) (o1 o2 : v3) (hkl : v3) (w : R) : res (list (option R) * option R) :=
  let ki := ki_of c t w in
  let kf := kf_of c t w in
  let q := qt l o1 o2 hkl in
  let Q := option_map q_len q in
  let with_all (f : R -> R -> R -> v3 -> option R) := obind ki (fun i => obind kf (fun k => obind q (fun v => f i k (q_len v) v))) in
  bind (spacing (x_tau (t_mono t))) (fun dm =>
  bind (spacing (x_tau (t_ana t))) (fun da =>
  let A1 := bragg (x_dir (t_mono t)) dm ki in
  let A5 := bragg (x_dir (t_ana t)) da kf in
  let A3 := with_all (fun i k Q v => a3_of (s_dir t) i k Q v) in
  let A4 := with_all (fun i k Q v => a4_of (s_dir t) i k Q) in
  Ok (map odeg [A1; twice A1; A3; A4; A5; twice A5], Q))).

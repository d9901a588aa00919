(** Scattering triangle: neutronpy/instrument/tools.py:521-592, over the reals. *)
From Coq Require Import Reals List.
From Verif Require Import Base EnergyModel.
Local Open Scope R_scope.

(** np.sign *)
Definition sign (x : R) : R := if Rlt_dec 0 x then 1 else if Rlt_dec x 0 then -1 else 0.

(** tools.py:546-559 get_angle_ki_Q for Python floats (a zero ki divides by zero). *)
Definition angle_ki_Q (ki kf Q gonio : R) (outside : bool) : res R :=
  bind (if Req_EM_T Q 0 then Ok (PI / 2)
        else if Req_EM_T (2 * ki * Q) 0 then Err ZeroDivisionError
        else let c := (ki ^ 2 - kf ^ 2 + Q ^ 2) / (2 * ki * Q) in
             if Rlt_dec 1 (Rabs c) then Err ScatteringTriangleError else Ok (acos c))
       (fun a => Ok ((if outside then PI - a else a) * sign gonio)).

(** tools.py:582-592 get_kfree.  nan < 0 is false, so nan is returned as nan. *)
Definition kfree (c : consts) (W kfixed : R) (ki_fixed : bool) : res fl :=
  match wavevec (values_of c W) with
  | Fin k => let kE := if ki_fixed then - k ^ 2 else k ^ 2 in
             let ksq := kE + kfixed ^ 2 in
             if Rlt_dec ksq 0 then Err ScatteringTriangleError else Ok (Fin (sqrt ksq))
  | _ => Ok NaN
  end.

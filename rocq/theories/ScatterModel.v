(** The scattering function and the susceptibility of a whole dataset: neutronpy/data/analysis.py:30-46 and 162-206, over the reals, with non-finite results.
    One point is in BalanceModel.v, the conversion of energies in EnergyModel.v. *)
From Coq Require Import List Reals.
From Verif Require Import Base EnergyModel BalanceModel.
Import ListNotations.
Local Open Scope R_scope.

(** numpy's division and multiplication; of an infinity the sign is not kept. *)
Definition div_fl (x y : fl) : fl :=
  match x, y with
  | NaN, _ | _, NaN | Inf, Inf => NaN
  | Inf, Fin _ => Inf
  | Fin _, Inf => Fin 0
  | Fin a, Fin b => if Req_EM_T b 0 then (if Req_EM_T a 0 then NaN else Inf) else Fin (a / b)
  end.
Definition mul_fl (x y : fl) : fl :=
  match x, y with
  | NaN, _ | _, NaN => NaN
  | Inf, Inf => Inf
  | Inf, Fin a | Fin a, Inf => if Req_EM_T a 0 then NaN else Inf
  | Fin a, Fin b => Fin (a * b)
  end.
(** analysis.py:182-185.  [sigma] is material.total_scattering_cross_section, [es] the energies and [ds] the counts of the points, both columns of the
    dataset.  4 * np.pi and the cross section are Python numbers, so a cross section of 0 raises. *)
Definition scattering_functions (c : consts) (sigma ei : R) (es ds : list R) : res (list fl) :=
  if Req_EM_T sigma 0 then Err ZeroDivisionError
  else let ki := wavevec (values_of c ei) in
       let kf := map snd (array_waves c (map (fun e => ei - e) es)) in
       Ok (map (fun p => mul_fl (div_fl (mul_fl (Fin (4 * PI / sigma)) ki) (fst p)) (Fin (snd p))) (combine kf ds)).
(** analysis.py:46 for the points with the energies [es] and temperatures [ts]: at temperature 0 the exponent is infinite or nan. *)
Definition balance_at (e t : R) : fl :=
  if Req_EM_T t 0 then (if Req_EM_T e 0 then NaN else if Rlt_dec 0 e then Fin 1 else Inf) else Fin (detailed_balance_factor e t).
(** analysis.py:206. *)
Definition susceptibilities (c : consts) (sigma ei : R) (es ts ds : list R) : res (list fl) :=
  bind (scattering_functions c sigma ei es ds) (fun s => Ok (map (fun p => mul_fl (fst p) (balance_at (fst (snd p)) (snd (snd p)))) (combine s (combine es ts)))).

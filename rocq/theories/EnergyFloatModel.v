(** Neutron energy conversions in binary64 arithmetic: /repo/neutronpy/energy.py, with each operation rounded.  The real-number model is EnergyModel.v. *)
From Coq Require Import Reals ZArith.
From Flocq Require Import Core.
From Verif Require Import Base EnergyModel.
Local Open Scope R_scope.

(** Round to nearest, ties to even, 53 bits, with gradual underflow. *)
Definition rnd (x : R) : R := round radix2 (FLT_exp (-1074) 53) ZnearestE x.
(** The result of an operation whose exact value is [x]; [None]: it overflows. *)
Definition op1 (x : R) : option R := if Rlt_dec (Rabs (rnd x)) (bpow radix2 1024) then Some (rnd x) else None.
(** Multiplication, division and square root; [None] also for what is not a finite number. *)
Definition omul (a b : option R) : option R := match a, b with Some x, Some y => op1 (x * y) | _, _ => None end.
Definition odiv (a b : option R) : option R := match a, b with Some x, Some y => if Req_EM_T y 0 then None else op1 (x / y) | _, _ => None end.
Definition osqrt (a : option R) : option R := match a with Some x => if Rle_lt_dec 0 x then op1 (sqrt x) else None | None => None end.
(** The square is taken with the power function of the C library, for which only an error bound is known: [sq] is any function. *)
Definition osq (sq : R -> option R) (a : option R) : option R := match a with Some x => sq x | None => None end.
Definition np_pi : option R := op1 PI.

(** energy.py:65-74, the operations in their order; the constants h, hbar, k, m_n, JOULES_TO_MEV are as they are stored; 1e10 and 1e12 are exact. *)
Definition energy_fl (sq : R -> option R) (c : consts) (q : quantity) (x : option R) : option R :=
  match q with
  | QEnergy => x
  | QWavelength => omul (odiv (osq sq (Some (c_h c))) (omul (omul (Some 2) (Some (c_m c))) (osq sq (odiv x (Some (10 ^ 10)))))) (Some (c_J c))
  | QVelocity => omul (omul (omul (odiv (Some 1) (Some 2)) (Some (c_m c))) (osq sq x)) (Some (c_J c))
  | QWavevector => omul (odiv (osq sq (Some (c_h c))) (omul (omul (Some 2) (Some (c_m c))) (osq sq (odiv (odiv (omul (Some 2) np_pi) x) (Some (10 ^ 10)))))) (Some (c_J c))
  | QTemperature => omul (omul (Some (c_k c)) x) (Some (c_J c))
  | QFrequency => omul (omul (omul (omul (omul (Some (c_hbar c)) x) (Some 2)) np_pi) (Some (c_J c))) (Some (10 ^ 12))
  end.
(** energy.py:89-94, for an energy other than 0. *)
Definition wavelength_fl (sq : R -> option R) (c : consts) (E : option R) : option R :=
  omul (osqrt (odiv (osq sq (Some (c_h c))) (odiv (omul (omul (Some 2) (Some (c_m c))) E) (Some (c_J c))))) (Some (10 ^ 10)).
Definition get_fl (sq : R -> option R) (c : consts) (q : quantity) (E : option R) : option R :=
  match q with
  | QEnergy => E
  | QWavelength => wavelength_fl sq c E
  | QVelocity => osqrt (odiv (odiv (omul (Some 2) E) (Some (c_J c))) (Some (c_m c)))
  | QWavevector => odiv (omul (Some 2) np_pi) (wavelength_fl sq c E)
  | QTemperature => odiv (odiv E (Some (c_k c))) (Some (c_J c))
  | QFrequency => odiv (odiv (odiv (odiv (odiv E (Some (c_J c))) (Some (c_hbar c))) (Some 2)) np_pi) (Some (10 ^ 12))
  end.
(** energy.py:55-56. *)
Definition eq_fl (E E' : R) : Prop := Rabs (rnd (E - E')) < rnd (1 / 10 ^ 6).

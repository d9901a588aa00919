(** Neutron energy conversions: /repo/neutronpy/energy.py, over the reals.
    scipy's constants h, hbar, k, m_n and JOULES_TO_MEV are a record of numbers; results that are
    not finite numbers are separate values. *)
From Coq Require Import Reals List.
From Verif Require Import Base.
Import ListNotations.
Local Open Scope R_scope.

Record consts := mkC { c_h : R; c_hbar : R; c_k : R; c_m : R; c_J : R }.

(** A float result: a number, nan or infinity. *)
Inductive fl := Fin (r : R) | NaN | Inf.

Inductive quantity := QEnergy | QWavelength | QVelocity | QWavevector | QTemperature | QFrequency.

(** energy.py:63-76: the energy belonging to a scalar value of one quantity.  Division by a zero
    Python float raises. *)
Definition energy_of (c : consts) (q : quantity) (x : R) : res R :=
  match q with
  | QEnergy => Ok x
  | QWavelength => if Req_EM_T x 0 then Err ZeroDivisionError
                   else Ok (c_h c ^ 2 / (2 * c_m c * (x / 10 ^ 10) ^ 2) * c_J c)
  | QVelocity => Ok (1 / 2 * c_m c * x ^ 2 * c_J c)
  | QWavevector => if Req_EM_T x 0 then Err ZeroDivisionError
                   else Ok (c_h c ^ 2 / (2 * c_m c * ((2 * PI / x) / 10 ^ 10) ^ 2) * c_J c)
  | QTemperature => Ok (c_k c * x * c_J c)
  | QFrequency => Ok (c_hbar c * x * 2 * PI * c_J c * 10 ^ 12)
  end.

(** The six stored attributes. *)
Record energy := mkE { en : R; wavelen : fl; wavevec : fl; vel : fl; temp : R; freq : R }.

Definition fsqrt (x : R) : fl := if Rle_lt_dec 0 x then Fin (sqrt x) else NaN.
Definition fmap (f : R -> R) (x : fl) : fl := match x with Fin r => Fin (f r) | NaN => NaN | Inf => Inf end.

(** energy.py:89-90, for an energy other than 0. *)
Definition wavelength_of (c : consts) (E : R) : fl := fmap (fun s => s * 10 ^ 10) (fsqrt (c_h c ^ 2 / (2 * c_m c * E / c_J c))).
Definition wavevector_of (c : consts) (E : R) : fl := fmap (fun l => 2 * PI / l) (wavelength_of c E).

(** energy.py:78-94 for a scalar energy. *)
Definition values_of (c : consts) (E : R) : energy :=
  mkE E (if Req_EM_T E 0 then NaN else wavelength_of c E)
        (if Req_EM_T E 0 then Fin 0 else wavevector_of c E)
        (fsqrt (2 * E / c_J c / c_m c))
        (E / c_k c / c_J c)
        (E / c_J c / c_hbar c / 2 / PI / 10 ^ 12).

(** energy.py:46-47 with exactly one argument given. *)
Definition build (c : consts) (q : quantity) (x : R) : res energy :=
  match energy_of c q x with Ok E => Ok (values_of c E) | Err e => Err e end.

(** energy.py:61-76 with several arguments given: the first one present in the order energy,
    wavelength, velocity, wavevector, temperature, frequency counts; without any, [self.en] is
    missing and the AttributeError is re-raised. *)
Definition init (c : consts) (e wl v k t f : option R) : res energy :=
  match e, wl, v, k, t, f with
  | Some x, _, _, _, _, _ => build c QEnergy x
  | _, Some x, _, _, _, _ => build c QWavelength x
  | _, _, Some x, _, _, _ => build c QVelocity x
  | _, _, _, Some x, _, _ => build c QWavevector x
  | _, _, _, _, Some x, _ => build c QTemperature x
  | _, _, _, _, _, Some x => build c QFrequency x
  | _, _, _, _, _, _ => Err AttributeError
  end.

(** The property of an object (energy.py:101-153). *)
Definition get (o : energy) (q : quantity) : fl :=
  match q with
  | QEnergy => Fin (en o) | QWavelength => wavelen o | QVelocity => vel o
  | QWavevector => wavevec o | QTemperature => Fin (temp o) | QFrequency => Fin (freq o)
  end.

(** Assignment to a property: the values are recomputed from the new one; a raising assignment
    fails before anything is stored. *)
Definition assign (c : consts) (o : energy) (a : quantity * R) : energy :=
  match build c (fst a) (snd a) with Ok o' => o' | Err _ => o end.
Definition run (c : consts) (o : energy) (l : list (quantity * R)) : energy := fold_left (assign c) l o.

(** energy.py:78-87 for an array of energies: wavelength and wavevector of each entry.  In the
    presence of a zero, line 84 divides by the zeros just stored in [wavevec]. *)
Definition array_waves (c : consts) (es : list R) : list (fl * fl) :=
  if existsb (fun E => if Req_EM_T E 0 then true else false) es
  then map (fun E => if Req_EM_T E 0 then (NaN, Fin 0) else (wavelength_of c E, Inf)) es
  else map (fun E => (wavelength_of c E, wavevector_of c E)) es.

(** energy.py:55-56. *)
Definition eqb (a b : energy) : bool := if Rlt_dec (Rabs (en a - en b)) (1 / 10 ^ 6) then true else false.

(** The strength and the label of the aluminium rings: neutronpy/spurion.py:14-61.  The angles and the order of the lines are in
    [SpurionModel].  The structure factor is that of [StructModel] (over the reals); the quotient of wavelengths in the label is
    computed in binary64. *)
From Coq Require Import String List ZArith QArith Reals.
From Flocq Require Import Core.
From Verif Require Import Base LinAlg LatticeModel SymModel SpurionModel EnergyFloatModel.
From Verif Require Import StructModel.
Import ListNotations.
Local Open Scope R_scope.

(** spurion.py:27-34: the dictionary given to Material; the entries 'name' and 'debye-waller' are not looked at further. *)
Definition al_crystal (wavelength : R) : crystal :=
  mkC (Some 1) [mkItem "Al" (V 0 0 0) None None None] (Some al_cell) (Some wavelength) (Some (SStr "Fm-3m")) (Some false) false.
(** np.abs(z) ** 2 of a complex number, spurion.py:53. *)
Definition abs2 (z : cx) : R := sqrt (fst z ^ 2 + snd z ^ 2) ^ 2.
(** spurion.py:37, 53: |F|^2 of a reflection; nan is [None]. *)
Definition ring_strength (wavelength : R) (p : Z * Z * Z) : res (option R) :=
  bind (make_material (al_crystal wavelength)) (fun m => Ok (option_map abs2 (calc_nuc_str_fac m (hkl_of p)))).
(** spurion.py:61: '{0:.0f}'.format, the nearest whole number, halves to even; [None] is shown as nan. *)
Definition shown (x : option R) : option Z := option_map ZnearestE x.

(** spurion.py:38: e.wavelength / 3, e.wavelength / 2, e.wavelength. *)
Definition fraction (wavelength : R) (n : nat) : R := match n with 1%nat => wavelength | _ => rnd (wavelength / INR n) end.
(** spurion.py:49: the number in 'lambda/{0:.0f}'; np.round rounds to the nearest whole number, halves to even. *)
Definition label (wavelength : R) (n : nat) : Z := ZnearestE (rnd (wavelength / fraction wavelength n)).

(** The text of a neutron's properties: neutronpy/energy.py:49-50, 156-178.  The numbers are those of EnergyModel.v. *)
From Coq Require Import String Ascii List Bool ZArith Reals.
From Flocq Require Import Core.
From Verif Require Import Base TextModel EnergyModel SymModel.
Import ListNotations.
Local Open Scope string_scope.

(** '{0:3.3f}'.format of a number: the nearest whole number of thousandths (halves to even, as the value is rounded once), with a sign for negative numbers.  The width 3 adds no space, as all texts have at least three characters.
    Simplification: no signed zero. *)
Definition thousandths (x : R) : Z := ZnearestE (Rabs x * 1000).
Definition three (n : Z) : string := str_of_int (n / 100) ++ str_of_int (n / 10 mod 10) ++ str_of_int (n mod 10).
Definition fmt_number (x : R) : string :=
  let n := thousandths x in (if Rlt_dec x 0 then "-" else "") ++ str_of_int (n / 1000) ++ "." ++ three (n mod 1000).
Definition fmt (x : fl) : string := match x with Fin x => fmt_number x | NaN => "nan" | Inf => "inf" end.
(** energy.py:169-178; the letter of the unit is written in its two bytes of UTF-8. *)
Definition values (o : energy) : string :=
  join (String newline "")
    [""; "Energy: " ++ fmt (Fin (en o)) ++ " meV"; "Wavelength: " ++ fmt (wavelen o) ++ " Å"; "Wavevector: " ++ fmt (wavevec o) ++ " 1/Å"; "Velocity: " ++ fmt (vel o) ++ " m/s";
     "Temperature: " ++ fmt (Fin (temp o)) ++ " K"; "Frequency: " ++ fmt (Fin (freq o)) ++ " THz"; ""].
(** energy.py:49-50. *)
Definition str (o : energy) : string := values o.

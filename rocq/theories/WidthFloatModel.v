(** Peak widths in binary64 arithmetic: neutronpy/data/analysis.py:115-160.  The exact model is in AnalysisModel.v. *)
From Coq Require Import List Reals.
From Verif Require Import Base EnergyFloatModel IntFloatModel.
Import ListNotations.
Local Open Scope R_scope.

(** analysis.py:148-149: (data[key] - position) ** 2; numpy squares by multiplication. *)
Definition deviation (p z : R) : R := let d := rnd (z - p) in rnd (d * d).
(** analysis.py:143-155, fwhm=False: the width of the column with the selected entries [x].  [all_columns] are those of get_keys(False), over which the
    position is formed; [columns] those of get_keys(hkle); [hkle_columns] those integrated over.  The sum of the quotients is the one of position with the
    squared deviations in place of the column, so [position_fl] is used for both.  [None] is nan or infinite. *)
Definition width_fl (order : nat -> shape) (all_columns columns hkle_columns : list (list R)) (x I : list R) (bg : R) : res (option R) :=
  bind (position_fl order all_columns hkle_columns x I bg) (fun p =>
  match p with
  | None => Ok None
  | Some p => position_fl order columns hkle_columns (map (deviation p) x) I bg
  end).
(** analysis.py:152-153, fwhm=True: np.sqrt(width) * 2. * np.sqrt(2. * np.log(2.)); the last factor is the number [k], as np.log is not specified exactly.
    The root of a negative number is nan. *)
Definition fwhm_fl (k w : R) : option R := if Rlt_dec w 0 then None else Some (rnd (rnd (rnd (sqrt w) * 2) * k)).

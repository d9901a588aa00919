(** Detailed balance: /repo/neutronpy/data/analysis.py:30-46 and 163-206, over the reals. *)
From Coq Require Import Reals.
Local Open Scope R_scope.

(** constants.py:95: [8.6173303e-05 * 1.e3]. *)
Definition kB : R := 86173303 / 1000000000.

(** analysis.py:46 for one point. *)
Definition detailed_balance_factor (E T : R) : R := 1 - exp (- E / kB / T).

(** analysis.py:185 for one point: cross section [sigma], wave vectors [ki], [kf], counts [det]. *)
Definition scattering_function (sigma ki kf det : R) : R := 4 * PI / sigma * ki / kf * det.

(** analysis.py:206 for one point. *)
Definition dynamic_susceptibility (sigma ki kf det E T : R) : R :=
  scattering_function sigma ki kf det * detailed_balance_factor E T.

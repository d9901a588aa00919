(** Numbers of points from rounded quotients, in binary64 arithmetic: neutronpy/data/analysis.py:235-238 and neutronpy/crystal/structure_factors.py:124-128. *)
From Coq Require Import ZArith Reals.
From Flocq Require Import Core.
From Verif Require Import Base EnergyFloatModel.
Local Open Scope R_scope.

(** analysis.py:237: how many of the [n] smallest intensities (those not negative) are averaged for a background of [v] percent; int cuts off the fraction.
    Simplification: [n] < 2^53. *)
Definition percent_points (n : nat) (v : R) : Z := Ztrunc (rnd (INR n * rnd (v / 100))).
(** The literal 0.025. *)
Definition spacing : R := rnd (25 / 1000).
(** structure_factors.py:126. *)
Definition default_points : Z := Ztrunc (rnd (2 / spacing)) + 1.
(** structure_factors.py:128. *)
Definition range_points (lo hi : R) : Z := Ztrunc (rnd (rnd (hi - lo) / spacing)) + 1.
(** numpy.linspace: the distance of the points asked for, in exact arithmetic. *)
Definition distance (lo hi : R) : R := (hi - lo) / (IZR (range_points lo hi) - 1).

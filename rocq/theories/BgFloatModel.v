(** Background from the lowest intensities in binary64 arithmetic: neutronpy/data/analysis.py:235-240.  The exact model is in
    AnalysisModel.v, the number of points in PointsFloatModel.v. *)
From Coq Require Import List ZArith Reals.
From Verif Require Import Base EnergyFloatModel PointsFloatModel.
Import ListNotations.
Local Open Scope R_scope.

(** A way to add up numbers two at a time; numpy chooses one by the number of entries. *)
Inductive sum_tree := Leaf (x : R) | Plus (s t : sum_tree).
Fixpoint leaves (t : sum_tree) : list R := match t with Leaf x => [x] | Plus s t => leaves s ++ leaves t end.
Fixpoint total (t : sum_tree) : R := match t with Leaf x => x | Plus s t => rnd (total s + total t) end.
(** analysis.py:236: the intensities that are not negative.  Simplification: no nan. *)
Fixpoint not_negative (l : list R) : list R := match l with [] => [] | x :: r => if Rle_dec 0 x then x :: not_negative r else not_negative r end.
(** analysis.py:238: in ascending order. *)
Fixpoint insert (x : R) (l : list R) : list R := match l with [] => [x] | y :: r => if Rle_dec x y then x :: l else y :: insert x r end.
Fixpoint ascending (l : list R) : list R := match l with [] => [] | x :: r => insert x (ascending r) end.
(** analysis.py:238: [:Npts]; a negative number leaves out that many at the end. *)
Definition first_points (n : Z) (l : list R) : list R := firstn (Z.to_nat (if Z.ltb n 0 then Z.of_nat (List.length l) + n else n)) l.
(** analysis.py:239: np.average without weights, the total over the number; nan ([None]) without entries.  [order] is numpy's choice.
    Overflow is not modelled. *)
Definition average (order : list R -> sum_tree) (l : list R) : option R := match l with [] => None | _ => Some (rnd (total (order l) / INR (List.length l))) end.
(** analysis.py:235-240. *)
Definition percent_background (order : list R -> sum_tree) (v : R) (intensity : list R) : option R :=
  let inten := not_negative intensity in average order (first_points (percent_points (List.length inten) v) (ascending inten)).

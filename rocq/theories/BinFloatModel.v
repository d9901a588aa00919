(** Cells of Data.bin in binary64 arithmetic: neutronpy/data/data.py:581-585 and 645-657, with each operation rounded.  The exact model is BinModel.v. *)
From Coq Require Import List Arith Reals.
From Verif Require Import Base EnergyFloatModel.
Import ListNotations.
Local Open Scope R_scope.

(** One axis of a request: bounds and number of points, at least one. *)
Record axis := mkAxis { x_lo : R; x_hi : R; x_num : nat }.
(** data.py:647-650: the width of the cells.  Simplification: nothing overflows, and the quotient of numpy.linspace is not rounded to 0. *)
Definition width (a : axis) : R :=
  if Nat.eqb (x_num a) 1 then rnd (x_hi a - x_lo a) else rnd (rnd (x_hi a - x_lo a) / INR (x_num a - 1)).
(** data.py:648, numpy.average of two numbers; data.py:650, numpy.linspace: the products with the step are added to the start, and the last point is the stop. *)
Definition centre (a : axis) (i : nat) : R :=
  if Nat.eqb (x_num a) 1 then rnd (rnd (x_lo a + x_hi a) / 2)
  else if Nat.eqb i (x_num a - 1) then x_hi a else rnd (rnd (INR i * width a) + x_lo a).
(** data.py:581-582. *)
Definition above (a : axis) (i : nat) : R := rnd (centre a i + rnd (width a / 2)).
Definition below (a : axis) (i : nat) : R := rnd (centre a i - rnd (width a / 2)).
(** data.py:656-657: the cells of all axes together, by the indices of their centres. *)
Fixpoint cells (l : list axis) : list (list nat) :=
  match l with [] => [[]] | a :: r => flat_map (fun i => map (cons i) (cells r)) (seq 0 (x_num a)) end.
(** data.py:584: a measured point lies in a cell. *)
Fixpoint in_cell (l : list axis) (c : list nat) (p : list R) : Prop :=
  match l, c, p with
  | [], [], [] => True
  | a :: l, i :: c, x :: p => x <= above a i /\ x >= below a i /\ in_cell l c p
  | _, _, _ => False
  end.

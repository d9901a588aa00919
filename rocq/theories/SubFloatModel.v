(** Background subtraction in binary64 arithmetic: neutronpy/data/data.py:502-516, 543-559 (x=None), with each operation rounded.  The exact
    model is [subtract] in OpsModel.v. *)
From Coq Require Import List Reals.
From Verif Require Import Base EnergyFloatModel NormFloatModel.
Import ListNotations.
Local Open Scope R_scope.

(** Point by point; [None] when one of them is not a number. *)
Definition both (f : R -> R -> R) (a b : option R) : option R := match a, b with Some x, Some y => Some (f x y) | _, _ => None end.
Fixpoint pairwise (f : R -> R -> R) (l m : list (option R)) : list (option R) :=
  match l, m with a :: l', b :: m' => both f a b :: pairwise f l' m' | _, _ => [] end.
(** What is stored: the detector column, while monitor, time and both references are 1, and the errors. *)
Record difference := mkDiff { d_detector : list (option R); d_err : list (option R) }.
(** data.py:511-513.  The square is taken with the power function of the C library: [sq] is any function.  Simplification: numbers of
    points that differ are a ValueError, also when one of them is 1 (OpsModel.v has that case). *)
Definition subtract_fl (sq : R -> R) (self background : list point) : res difference :=
  bind (intensity_fl self) (fun i1 => bind (intensity_fl background) (fun i2 =>
  bind (error_fl self) (fun e1 => bind (error_fl background) (fun e2 =>
  if Nat.eqb (List.length i1) (List.length i2)
  then Ok (mkDiff (pairwise (fun a b => rnd (a - b)) i1 i2) (pairwise (fun a b => rnd (sqrt (larger (sq a) (sq b)))) e1 e2))
  else Err ValueError)))).
(** data.py:359-372 and 374-395 of the result: x / 1 * 1. *)
Definition read (l : list (option R)) : list (option R) := map (fun x => match x with Some x => scaled x 1 1 | None => None end) l.

(** Equality of triple-axis instruments: TripleAxisInstrument.__eq__ and _Dummy.__eq__, /repo/neutronpy/instrument/tas_instrument.py:128-144,
    instrument/tools.py:21-36, over the objects of ShareModel.v. *)
From Coq Require Import String List ZArith Reals Arith Bool.
From Verif Require Import Base CompModel ShareModel.
Import ListNotations.
Local Open Scope string_scope.
Local Open Scope list_scope.
Local Open Scope bool_scope.

Definition slots : list slot := [SMono; SAna; SSample; SDetector; SMonitor; SGuide].
(** tas_instrument.py:128-141: both dictionaries have the six components, compared by their own __eq__ (monochromator.py:78-90,
    crystal/sample.py:150-163, tools.py:21-33: the same code), and the other attributes. *)
Definition comp_eq (w : world) (x y : inst) (s : slot) : bool :=
  match nth_error (heap w) (at_ x s), nth_error (heap w) (at_ y s) with Some o, Some p => obj_eq o p | _, _ => false end.
Definition inst_eq (w : world) (i j : nat) : res bool :=
  match nth_error (insts w) i, nth_error (insts w) j with
  | Some x, Some y => Ok (obj_eq (plain x) (plain y) && forallb (comp_eq w x y) slots)
  | _, _ => Err NameError
  end.
(** tas_instrument.py:949-953, 997: what a resolution calculation stores; the arrays are kept as the list of their numbers. *)
Record outcome := mkOut { r_hkle : value; r_h : value; r_k : value; r_l : value; r_w : value; r_R0 : value; r_RMS : value; r_RM : value }.
Definition calculation (i : nat) (r : outcome) : list op :=
  [Plain i "HKLE" (r_hkle r); Plain i "H" (r_h r); Plain i "K" (r_k r); Plain i "L" (r_l r); Plain i "W" (r_w r);
   Plain i "R0" (r_R0 r); Plain i "RMS" (r_RMS r); Plain i "RM" (r_RM r)].

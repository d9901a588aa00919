(** Shared vocabulary of the models: Python exceptions as values, and small
    list utilities.  Nothing here models a particular function of /repo. *)
From Coq Require Import String List.
Import ListNotations.

(** The Python exception classes that occur in the modelled code. *)
Inductive exn : Type :=
| TypeError | ValueError | KeyError | IndexError | NameError | AttributeError
| UnboundLocalError | RecursionError | RuntimeError | AssertionError | ZeroDivisionError
| GenericException
| ScatteringTriangleError | MonochromatorError | AnalyzerError | ChopperError
| DetectorError | GoniometerError | InstrumentError | OSError.

(** Outcome of a Python call: a value or a raised exception. *)
Inductive res (A : Type) : Type :=
| Ok (a : A)
| Err (e : exn).
Arguments Ok {A} a.
Arguments Err {A} e.

Definition bind {A B} (x : res A) (f : A -> res B) : res B :=
  match x with Ok a => f a | Err e => Err e end.

(** Left-to-right evaluation of [f] over a list, stopping at the first exception. *)
Fixpoint map_res {A B} (f : A -> res B) (l : list A) : res (list B) :=
  match l with
  | [] => Ok []
  | x :: l' =>
      match f x with
      | Err e => Err e
      | Ok y => match map_res f l' with Err e => Err e | Ok ys => Ok (y :: ys) end
      end
  end.

(** Replacement of one list element through a fallible function; an index out of
    range is Python's IndexError. *)
Fixpoint upd_res {A} (n : nat) (f : A -> res A) (l : list A) {struct l} : res (list A) :=
  match l, n with
  | [], _ => Err IndexError
  | x :: l', O => match f x with Ok y => Ok (y :: l') | Err e => Err e end
  | x :: l', S n' => match upd_res n' f l' with Ok ys => Ok (x :: ys) | Err e => Err e end
  end.

(** Membership test used for `k in list`. *)
Definition mem (k : string) (l : list string) : bool := existsb (String.eqb k) l.

(** Helpers of the instrument code: crystal names, argument cleaning, chop.
    /repo/neutronpy/instrument/tools.py and monochromator.py. *)
From Coq Require Import String Ascii List ZArith Reals.
From Verif Require Import Base.
Import ListNotations.
Local Open Scope R_scope.

(** ** GetTau *)
(** str.lower, for ASCII characters. *)
Definition lower_ascii (c : ascii) : ascii :=
  let n := nat_of_ascii c in if (Nat.leb 65 n && Nat.leb n 90)%bool then ascii_of_nat (n + 32) else c.
Fixpoint lower (s : string) : string := match s with EmptyString => EmptyString | String c r => String (lower_ascii c) (lower r) end.
(** tools.py:205-220.  The key 'cu(111)' occurs twice: the dictionary keeps the first place and the last value. *)
Definition choices : list (string * R) :=
  [(lower "pg(002)", 187325 / 100000); (lower "pg(004)", 374650 / 100000); (lower "ge(111)", 192366 / 100000);
   (lower "ge(220)", 314131 / 100000); (lower "ge(311)", 368351 / 100000); (lower "be(002)", 350702 / 100000);
   (lower "pg(110)", 549806 / 100000); (lower "Cu2MnAl(111)", 2 * PI / (3437 / 1000));
   (lower "Co0.92Fe0.08(200)", 2 * PI / (1771 / 1000)); (lower "Ge(511)", 2 * PI / (1089 / 1000));
   (lower "Ge(533)", 2 * PI / (863 / 1000)); (lower "Si(111)", 2 * PI / (3135 / 1000));
   (lower "Cu(111)", 2 * PI / (2095 / 1000)); (lower "Cu(002)", 2 * PI / (1807 / 1000));
   (lower "Cu(220)", 2 * PI / (1278 / 1000))]%string.
Definition lookup {A} (k : string) (l : list (string * A)) : option A := option_map snd (find (fun p => String.eqb (fst p) k) l).

(** The argument: a Python number, a string or something else. *)
Inductive tau_arg := TNum (x : R) | TName (s : string) | TOther.
(** Whose local variable [self] the caller's frame holds, by the start of its repr. *)
Inductive caller := CMonochromator | CAnalyzer | COtherSelf | CNoSelf.
(** tools.py:230-241 without getlabel; [None] is Python's None (no crystal and an unrecognised caller). *)
Definition get_tau (who : caller) (x : tau_arg) : res (option R) :=
  match x with
  | TNum x => Ok (Some x)
  | TOther => Err AttributeError
  | TName s => match lookup (lower s) choices with
               | Some t => Ok (Some t)
               | None => match who with
                         | CMonochromator => Err MonochromatorError
                         | CAnalyzer => Err AnalyzerError
                         | COtherSelf => Ok None
                         | CNoSelf => Err KeyError
                         end
               end
  end.
(** tools.py:222-229: min over the dictionary keeps the first of equal distances. *)
Fixpoint closest (best : string * R) (l : list (string * R)) : string * R :=
  match l with
  | [] => best
  | p :: r => if Rlt_dec (snd p) (snd best) then closest p r else closest best r
  end.
Definition get_label (x : R) : string :=
  let d := map (fun p => (fst p, Rabs (snd p - x))) choices in
  match d with
  | [] => EmptyString
  | p :: r => let b := closest p r in if Rlt_dec (Rabs (snd b)) (5 / 10000) then fst b else EmptyString
  end.

(** ** Monochromator.tau and d: monochromator.py:45-61, 95-102 *)
Record mono := mkMono { mo_tau : tau_arg; mo_d : R }.
(** 2 * np.pi / GetTau(tau) in a method of the crystal; a Python zero divides with an exception, None is a TypeError. *)
Definition spacing (who : caller) (t : tau_arg) : res R :=
  bind (get_tau who t) (fun o =>
  match o with
  | None => Err TypeError
  | Some x => if Req_EM_T x 0 then Err ZeroDivisionError else Ok (2 * PI / x)
  end).
Definition make_mono (who : caller) (t : tau_arg) : res mono := bind (spacing who t) (fun d => Ok (mkMono t d)).
(** The setter stores the value before computing d: a failing assignment leaves the new tau and the old d. *)
Definition set_tau (who : caller) (m : mono) (t : tau_arg) : mono * res unit :=
  match spacing who t with
  | Ok d => (mkMono t d, Ok tt)
  | Err e => (mkMono t (mo_d m), Err e)
  end.
Fixpoint assignments (who : caller) (m : mono) (l : list tau_arg) : mono :=
  match l with [] => m | t :: r => assignments who (fst (set_tau who m t)) r end.

(** ** _CleanArgs: tools.py:274-295, one-dimensional arguments *)
Section clean.
  Context {A : Type}.
  Inductive clean_arg := Scalar (a : A) | Many (l : list A).
  Definition to_list (a : clean_arg) : list A := match a with Scalar x => [x] | Many l => l end.
  (** max of the lengths; of none of them a ValueError. *)
  Definition longest (l : list (list A)) : res nat :=
    match l with [] => Err ValueError | _ => Ok (fold_right Nat.max 0%nat (map (@length A) l)) end.
  (** varargout[i][-1] of an empty argument is an IndexError. *)
  Definition pad (n : nat) (l : list A) : res (list A) :=
    if Nat.ltb (length l) n then
      match rev l with
      | [] => Err IndexError
      | x :: _ => Ok (l ++ repeat x (n - length l))
      end
    else Ok l.
  Definition clean_args (args : list clean_arg) : res (nat * list (list A)) :=
    let ls := map to_list args in
    bind (longest ls) (fun n => bind (map_res (pad n) ls) (fun r => Ok (n, r))).
End clean.

(** ** chop: tools.py:611-644 *)
(** Values: real and complex numbers and arrays, lists and tuples, anything else. *)
Inductive value :=
| VNum (x : R) | VCplx (re im : R) | VArr (l : list R) | VCArr (l : list (R * R))
| VList (l : list value) | VTuple (l : list value) | VOther.
Definition default_tol : R := / 10 ^ 12.
Definition small (tol x : R) : R := if Rlt_dec (Rabs x) tol then 0 else x.
Definition below (tol x : R) : R := if Rlt_dec x tol then 0 else x.
(** Element by element, left to right. *)
Definition each {A B} (f : A -> res B) : list A -> res (list B) :=
  fix go l := match l with [] => Ok [] | x :: r => bind (f x) (fun y => bind (go r) (fun ys => Ok (y :: ys))) end.
Fixpoint chop (tol : R) (v : value) : res value :=
  match v with
  | VTuple l => bind (each (chop default_tol) l) (fun r => Ok (VTuple r))
  | VList l => bind (each (chop default_tol) l) (fun r => Ok (VList r))
  | VArr l => Ok (VArr (map (small tol) l))
  | VCArr l => Ok (VCArr (map (fun p => (small tol (fst p), small tol (snd p))) l))
  | VNum x => Ok (VNum (below tol x))
  | VCplx re im => (* np.iscomplex tests the imaginary part; otherwise a complex number is compared *)
      if Req_EM_T im 0 then Err TypeError else Ok (VCplx (below tol re) (below tol im))
  | VOther => Ok VOther
  end.

(** Collections of scans and the dictionaries they are made of: /repo/neutronpy/data/scans.py:35-58.  A collection keeps the
    dictionary it is given itself, not a copy.  And the waterfall plot, scans.py:75-122. *)
From Coq Require Import String List Bool Arith ZArith Reals.
From Verif Require Import Base ScansModel PcolorModel DescribeModel.
Import ListNotations.
Local Open Scope list_scope.

(** What a program does, in order: make an OrderedDict, make a collection (of a dictionary or of nothing), update collection [o] with
    dictionary [l], assign an entry of a dictionary.  Dictionaries and collections are numbered as they are made. *)
Inductive action (S : Type) := NewDict (d : odict S) | Build (l : option nat) | Update (o l : nat) | Put (l : nat) (k : string) (v : S).
Arguments NewDict {S}. Arguments Build {S}. Arguments Update {S}. Arguments Put {S}.
(** The dictionaries, and of each collection its dictionary and num_scans. *)
Record state (S : Type) := mkState { dicts : list (odict S); colls : list (option nat * option nat) }.
Arguments mkState {S}. Arguments dicts {S}. Arguments colls {S}.
Fixpoint replace {A} (l : list A) (i : nat) (x : A) : list A := match l, i with [], _ => [] | _ :: r, 0 => x :: r | y :: r, Datatypes.S i => y :: replace r i x end.
Definition dict_at {S} (s : state S) (l : nat) : odict S := nth l (dicts s) [].
(** scans.py:36-41 and 54-58; an update of a collection of nothing is an AttributeError.  References to objects that were never made do
    nothing here. *)
Definition step {S} (s : state S) (a : action S) : state S :=
  match a with
  | NewDict d => mkState (dicts s ++ [d]) (colls s)
  | Build None => mkState (dicts s) (colls s ++ [(None, None)])
  | Build (Some l) => if Nat.ltb l (List.length (dicts s)) then mkState (dicts s) (colls s ++ [(Some l, Some (List.length (dict_at s l)))]) else s
  | Update o l =>
      match nth_error (colls s) o with
      | Some (Some m, _) => if Nat.ltb l (List.length (dicts s)) then mkState (replace (dicts s) m (oupdate (dict_at s m) (dict_at s l))) (replace (colls s) o (Some m, Some (List.length (dict_at s l)))) else s
      | _ => s
      end
  | Put l k v => if Nat.ltb l (List.length (dicts s)) then mkState (replace (dicts s) l (oset (dict_at s l) k v)) (colls s) else s
  end.
Definition run {S} (h : list (action S)) : state S := fold_left step h (mkState [] []).

(** A curve: its points, and the label as column and mean to three decimals ([None]: the mean of no values). *)
Record curve := mkCurve { c_x : list R; c_y : list R; c_column : string; c_mean : option Z }.
Definition label_mean (l : list R) : option Z := match l with [] => None | _ => Some (fixed 3 (rsum l / INR (List.length l))%R) end.
(** scans.py:105-113, from scan number [i] on: the curves drawn and the exception. *)
Fixpoint curves_from (i : nat) (x y c : string) (offset : R) (d : odict scan) : list curve * res unit :=
  match d with
  | [] => ([], Ok tt)
  | (_, s) :: d =>
      match column s x, column s y, column s c with
      | Ok xs, Ok ys, Ok ls => let (r, e) := curves_from (Datatypes.S i) x y c offset d in (mkCurve xs (map (fun v => v + offset * INR i)%R ys) c (label_mean ls) :: r, e)
      | _, _, _ => ([], Err KeyError)
      end
  end.
(** scans.py:101-122.  [hold]: whether matplotlib has the function hold. *)
Definition waterfall (hold : bool) (s : option (odict scan)) (x y c : string) (offset : R) : list curve * res unit :=
  match s with
  | None => ([], Err RuntimeError)
  | Some d => if hold then curves_from 0 x y c offset d else ([], Err AttributeError)
  end.

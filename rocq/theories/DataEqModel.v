(** Equality of datasets: Data.__eq__, /repo/neutronpy/data/data.py:195-204. *)
From Coq Require Import String List QArith Bool Arith.
From Verif Require Import Base DataModel.
Import ListNotations.

(** The columns of Data.data by their names, data.py:195-204; an entry that is not a number is [None]. *)
Definition column := list (option Q).
Definition frame := list (key * column).
Definition names (f : frame) : list key := map fst f.
Fixpoint find_col (f : frame) (k : key) : option column :=
  match f with [] => None | (k', c) :: f => if String.eqb k k' then Some c else find_col f k end.
(** The columns of a table of finite numbers (DataModel.v). *)
Definition frame_of (tb : table) : frame := map (fun k => (k, match col tb k with Some c => map Some c | None => [] end)) (keys tb).

(** x == y of two numbers: false if one is nan. *)
Definition entry_eq (a b : option Q) : bool := match a, b with Some x, Some y => Qeq_bool x y | _, _ => false end.
Fixpoint all_eq (a b : column) : bool := match a, b with x :: a, y :: b => entry_eq x y && all_eq a b | _, _ => true end.
(** np.all(a == b) of one-dimensional arrays: a single entry is compared with every entry of the other array; lengths that do not fit give
    False before numpy 1.25 and raise ValueError since ([raises]). *)
Definition np_all_eq (raises : bool) (a b : column) : res bool :=
  if Nat.eqb (length a) (length b) then Ok (all_eq a b)
  else match a, b with
  | [x], _ => Ok (forallb (entry_eq x) b)
  | _, [y] => Ok (forallb (fun x => entry_eq x y) a)
  | _, _ => if raises then Err ValueError else Ok false
  end.
(** data.py:196: sorted lists of names, which are distinct, are equal if each has the names of the other. *)
Definition same_names (f g : frame) : bool :=
  Nat.eqb (length f) (length g) && forallb (fun k => mem k (names g)) (names f).
(** data.py:199-201 *)
Fixpoint compare (raises : bool) (f g : frame) : res bool :=
  match f with
  | [] => Ok true
  | (k, a) :: f =>
      match find_col g k with
      | None => Err KeyError
      | Some b => bind (np_all_eq raises a b) (fun t => if t then compare raises f g else Ok false)
      end
  end.
(** data.py:195-204 *)
Definition data_eq (raises : bool) (f g : frame) : res bool := if same_names f g then compare raises f g else Ok false.

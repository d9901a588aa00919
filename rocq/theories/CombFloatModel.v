(** Data.combine_data in binary64 arithmetic: neutronpy/data/data.py:443-470.  The exact model, with column names and all failures, is DataModel.v. *)
From Coq Require Import List Reals.
From Verif Require Import Base EnergyFloatModel.
Import ListNotations.
Local Open Scope R_scope.

(** One measured point: the columns that are not counts, in their order, and the three that are.  Simplification: both datasets have the same columns, all of them finite floats. *)
Record point := mkPoint { p_at : list R; p_det : R; p_mon : R; p_time : R }.
(** data.py:457, [r] rounds each operation: np.abs(orig_vals - new_vals) <= tols in every column. *)
Fixpoint near (r : R -> R) (tols a b : list R) : bool :=
  match tols, a, b with
  | t :: ts, x :: xs, y :: ys => (if Rle_dec (Rabs (r (x - y))) t then true else false) && near r ts xs ys
  | _, _, _ => true
  end.
(** data.py:454-461: the first point of the first dataset, as it was before, that is near. *)
Fixpoint first_near (r : R -> R) (tols : list R) (o : point) (l : list point) : option nat :=
  match l with
  | [] => None
  | p :: l => if near r tols (p_at p) (p_at o) then Some O else option_map S (first_near r tols o l)
  end.
(** data.py:458-460: the counts are added in place. *)
Definition add_counts (r : R -> R) (p o : point) : point :=
  mkPoint (p_at p) (r (p_det p + p_det o)) (r (p_mon p + p_mon o)) (r (p_time p + p_time o)).
Fixpoint add_at (r : R -> R) (j : nat) (o : point) (l : list point) : list point :=
  match l, j with
  | [], _ => []
  | p :: l, O => add_counts r p o :: l
  | p :: l, S j => p :: add_at r j o l
  end.
(** data.py:452-464: the loop over the points of the second dataset. *)
Fixpoint comb_loop (r : R -> R) (tols : list R) (self obj temp : list point) : list point :=
  match obj with
  | [] => temp
  | o :: obj => comb_loop r tols self obj (match first_near r tols o self with Some j => add_at r j o temp | None => temp ++ [o] end)
  end.
(** data.py:451-464: the points combined, before they are sorted (data.py:467-470 moves whole points). *)
Definition combined (r : R -> R) (tols : list R) (self obj : list point) : list point := comb_loop r tols self obj self.
(** The arithmetic of the machine, and the exact one. *)
Definition machine : R -> R := rnd.
Definition exact : R -> R := fun x => x.

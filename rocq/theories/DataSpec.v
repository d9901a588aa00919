(** Vocabulary used to state the properties of dataset combination.  Independent of the loop
    in DataModel: everything here is declarative. *)
From Coq Require Import String List QArith Qabs Bool Arith.
From Verif Require Import Base DataModel.
Import ListNotations.

(** Sum of a column. *)
Definition Qsum (l : list Q) : Q := fold_right Qplus 0 l.

(** A table whose column names are distinct and whose rows have one entry per column. *)
Definition wf_table (tb : table) : Prop :=
  NoDup (keys tb) /\ Forall (fun r => List.length r = List.length (keys tb)) (rows tb).

(** Index of the first element satisfying [p]. *)
Fixpoint first_index {A} (p : A -> bool) (l : list A) : option nat :=
  match l with
  | [] => None
  | x :: l' => if p x then Some 0%nat else option_map S (first_index p l')
  end.

(** All coordinates agree within the tolerances. *)
Definition near (ts a b : list Q) : bool :=
  forallb (fun txy => Qle_bool (Qabs (fst (snd txy) - snd (snd txy))) (fst txy))
          (List.combine ts (List.combine a b)).

(** The coordinates of a point of a dataset: the values of its columns other than detector,
    monitor and time. *)
Definition pos (d : data) (r : list Q) : list Q := coords (dk_list (dk d)) (keys (tab d)) r.

(** The point of [self] with which a point [o] of [obj] is merged: the first one near it. *)
Definition partner (ts : list Q) (self obj : data) (o : list Q) : option nat :=
  first_index (fun r => near ts (pos self r) (pos obj o)) (rows (tab self)).

(** The points of [obj] merged into point number [j] of [self]. *)
Definition merged_into (ts : list Q) (self obj : data) (j : nat) : list (list Q) :=
  filter (fun o => match partner ts self obj o with Some i => Nat.eqb i j | None => false end)
         (rows (tab obj)).

(** The points of [obj] without partner. *)
Definition unmatched (ts : list Q) (self obj : data) : list (list Q) :=
  filter (fun o => match partner ts self obj o with Some _ => false | None => true end)
         (rows (tab obj)).

(** Number of coordinate columns. *)
Definition ncoords (d : data) : nat :=
  List.length (filter (fun k => negb (mem k (dk_list (dk d)))) (keys (tab d))).

(** [r'] is the point [r] with the counts of the points [os] added: coordinates are those of
    [r], each count column is increased by the sum over [os]. *)
Definition gains (self obj : data) (os : list (list Q)) (r r' : list Q) : Prop :=
  forall k v, lookup (keys (tab self)) r k = Some v ->
    exists v', lookup (keys (tab self)) r' k = Some v' /\
      if mem k (dk_list (dk self))
      then exists vs, Forall2 (fun o x => lookup (keys (tab obj)) o k = Some x) os vs
                      /\ v' == v + Qsum vs
      else v' = v.

(** [r'] is the point [o] of [obj], columns taken by name in the order of [self]. *)
Definition same_point (self obj : data) (o r' : list Q) : Prop :=
  List.length r' = List.length (keys (tab self)) /\
  forall k, In k (keys (tab self)) -> lookup (keys (tab self)) r' k = lookup (keys (tab obj)) o k
                                       /\ lookup (keys (tab obj)) o k <> None.

(** Lexicographic order on coordinate vectors of equal length, first entry most significant. *)
Inductive lex_le : list Q -> list Q -> Prop :=
| lex_nil : lex_le [] []
| lex_lt x y a b : x < y -> List.length a = List.length b -> lex_le (x :: a) (y :: b)
| lex_eq x y a b : x == y -> lex_le a b -> lex_le (x :: a) (y :: b).

(** The counts recorded at a position: sum of column [k] over the points whose coordinates
    equal [c]. *)
Definition same_pos (a b : list Q) : bool :=
  Nat.eqb (List.length a) (List.length b) &&
  forallb (fun xy => Qeq_bool (fst xy) (snd xy)) (List.combine a b).
Definition counts_at (d : data) (c : list Q) (k : key) : Q :=
  Qsum (map (fun r => match lookup (keys (tab d)) r k with Some v => v | None => 0 end)
            (filter (fun r => same_pos (pos d r) c) (rows (tab d)))).

(** The tolerances in force for [n] coordinates (data.py:443-448): 5e-4 each by default, a number
    applies to all coordinates, a sequence has one entry per coordinate (or a single one). *)
Definition effective_tols (t : tolarg) (nkeys_obj n : nat) (ts : list Q) : Prop :=
  match t with
  | TolDefault => nkeys_obj = (n + 3)%nat /\ ts = repeat (5 # 10000) n
  | TolScalar q => ts = repeat q n
  | TolSeq l => (List.length l = n /\ ts = l) \/ (exists q, l = [q] /\ n <> 1%nat /\ ts = repeat q n)
  end.

(** Two datasets with the same columns (possibly in another order) and the same count columns,
    which are three distinct columns of both, and at least one coordinate column. *)
Definition same_columns (a b : data) : Prop :=
  wf_table (tab a) /\ wf_table (tab b) /\ dk a = dk b /\
  (forall k, In k (keys (tab a)) <-> In k (keys (tab b))) /\
  NoDup (dk_list (dk a)) /\ (forall k, In k (dk_list (dk a)) -> In k (keys (tab a))) /\
  (0 < ncoords a)%nat.

(** A point of the dataset lies at coordinates [c]. *)
Definition has_point (d : data) (c : list Q) : Prop :=
  exists r, In r (rows (tab d)) /\ same_pos (pos d r) c = true.

(** No two points of the dataset have equal coordinates: at most one point at any position. *)
Definition points_at (d : data) (c : list Q) : list (list Q) :=
  filter (fun r => same_pos (pos d r) c) (rows (tab d)).
Definition distinct_points (d : data) : Prop :=
  forall c, (List.length (points_at d c) <= 1)%nat.

(** Tolerances that demand exact agreement of every coordinate. *)
Definition exact_matching (t : tolarg) (self obj : data) : Prop :=
  effective_tols t (List.length (keys (tab obj))) (ncoords self) (repeat 0 (ncoords self)).

(** Same columns in the same order. *)
Definition same_layout (a b : data) : Prop := same_columns a b /\ keys (tab a) = keys (tab b).

(** Vocabulary for rebinning. *)
From Coq Require Import String List QArith Qabs Bool Arith ZArith.
From Verif Require Import Base DataModel DataSpec OpsModel OpsSpec BinModel.
Import ListNotations.

Definition is_smallest (m : Q) (c : list Q) : Prop := In m c /\ Forall (fun x => m <= x) c.

(** The range and number of bins used for column [k]: the one asked for, else one bin over the
    full extent of the column. *)
Definition bin_range (tb : table) (to_bin : list (key * request)) (k : key) (r : request) : Prop :=
  In (k, r) to_bin \/
  (~ In k (map fst to_bin) /\ exists lo hi c, r = (lo, hi, 1%nat) /\ col tb k = Some c /\
     is_smallest lo c /\ is_largest hi c).

(** Width of the bins of a range with [n] bins: neighbouring centres are one width apart, the first
    and last centre sit on the bounds; a single bin spans the range. *)
Definition width (r : request) : Q :=
  let '(lo, hi, n) := r in if Nat.eqb n 1 then hi - lo else (hi - lo) / (inject_Z (Z.of_nat n) - 1).
(** [c] is the centre of bin number [i] of the range. *)
Definition is_centre (r : request) (i : nat) (c : Q) : Prop :=
  let '(lo, hi, n) := r in
  (i < n)%nat /\ (if Nat.eqb n 1 then c == (lo + hi) / 2 else c == lo + inject_Z (Z.of_nat i) * width r).
(** [c] is a cell centre: one bin centre per range. *)
Definition is_cell (ranges : list request) (c : list Q) : Prop :=
  Forall2 (fun r x => exists i, is_centre r i x) ranges c.

(** [v] lies in the cell around [c]: in each coordinate within half a width, boundary included. *)
Definition within_cell (ranges : list request) (c v : list Q) : Prop :=
  List.length v = List.length ranges /\ List.length c = List.length ranges /\
  forall i r x y, nth_error ranges i = Some r -> nth_error c i = Some x -> nth_error v i = Some y ->
    Qabs (y - x) <= width r / 2.

(** The values of the binned columns of a row. *)
Definition at_keys (ks bk : list key) (r v : list Q) : Prop :=
  Forall2 (fun k x => lookup ks r k = Some x) bk v.

(** [r'] is the output row of the cell [c]: centre in the binned columns, mean over the measured
    rows [ms] in the others. *)
Definition cell_row (ks bk : list key) (c : list Q) (ms : list (list Q)) (r' : list Q) : Prop :=
  List.length r' = List.length ks /\
  (forall i k x, nth_error bk i = Some k -> In k ks -> nth_error c i = Some x -> lookup ks r' k = Some x) /\
  (forall k, In k ks -> ~ In k bk ->
     exists v vs, lookup ks r' k = Some v /\ Forall2 (fun r x => lookup ks r k = Some x) ms vs /\
       v * inject_Z (Z.of_nat (List.length ms)) == Qsum vs).

(** [ms] are the rows of [l] in the cell [c], in order. *)
Definition members (ks bk : list key) (ranges : list request) (c : list Q) (l ms : list (list Q)) : Prop :=
  exists p, ms = filter p l /\
    forall r, In r l -> (p r = true <-> exists v, at_keys ks bk r v /\ within_cell ranges c v).

(** [v] is the mean of the values [l]; non-finite if one of them is. *)
Definition mean_of (l : list (option Q)) (v : option Q) : Prop :=
  (In None l /\ v = None) \/
  (exists qs q, l = map Some qs /\ v = Some q /\ q * inject_Z (Z.of_nat (List.length qs)) == Qsum qs).

(** [v] is the mean, over the rows of [l] in the cell [c], of the values [es] given row by row. *)
Definition cell_mean (ks bk : list key) (ranges : list request) (c : list Q) (l : list (list Q))
    (es : list (option Q)) (v : option Q) : Prop :=
  exists p, (forall r, In r l -> (p r = true <-> exists u, at_keys ks bk r u /\ within_cell ranges c u)) /\
    mean_of (map snd (filter (fun re => p (fst re)) (List.combine l es))) v.

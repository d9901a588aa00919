(** Rebinning: /repo/neutronpy/data/data.py:561-687 ([_bin_parallel], [bin]) and the module level
    wrapper [_call_bin_parallel].
    Simplifications: all columns are finite numeric columns of one length; the process pool is
    [map] over the chunks in order ([Pool.map] preserves order); a grid without any cell together
    with a missing column is a KeyError here (the code only notices the missing column when there is
    a cell to fill). *)
From Coq Require Import String List QArith Qabs Bool Arith ZArith.
From Verif Require Import Base DataModel OpsModel.
Import ListNotations.
Local Open Scope string_scope.

(** One entry of [to_bin]: lower bound, upper bound, number of points. *)
Definition request := (Q * Q * nat)%type.
(** [Q_keys] in dictionary order: coordinate name, column name (data.py:93-94). *)
Definition qkeys := list (key * key).
Definition default_qkeys : qkeys := [("h", "h"); ("k", "k"); ("l", "l"); ("e", "e"); ("temp", "temp")].

Fixpoint remove_first (k : key) (l : list key) : list key :=
  match l with [] => [] | x :: l' => if String.eqb x k then l' else x :: remove_first k l' end.

(** data.py:626-633. *)
Definition bin_keys (qk : qkeys) (to_bin : list (key * request)) (build_hkl : bool) : list key :=
  let ks := map fst to_bin in
  if build_hkl
  then fold_left (fun acc kv => (if mem (fst kv) acc then remove_first (fst kv) acc else acc) ++ [snd kv])%list qk ks
  else ks.

Fixpoint req_get (to_bin : list (key * request)) (k : key) : option request :=
  match to_bin with [] => None | (k', r) :: l => if String.eqb k' k then Some r else req_get l k end.

(** numpy [min]; ValueError on an empty column. *)
Definition qmin (a b : Q) : Q := if Qle_bool a b then a else b.
Definition colmin (l : list Q) : res Q :=
  match l with [] => Err ValueError | x :: l' => Ok (fold_left qmin l' x) end.

(** data.py:635-643: the requested range, or the full extent of the column in one bin. *)
Definition bin_arg (tb : table) (qk : qkeys) (to_bin : list (key * request)) (k : key) : res request :=
  match req_get to_bin k with
  | Some r => Ok r
  | None =>
      if mem k (map snd qk) then
        match getcol tb k with
        | Err e => Err e
        | Ok c => match colmin c, nanmax c with Ok a, Ok b => Ok (a, b, 1%nat) | _, _ => Err ValueError end
        end
      else Err KeyError
  end.

(** data.py:645-652: bin centres and width of one axis: the midpoint of the range for one bin,
    [linspace] with its step otherwise. *)
Definition nq (n : nat) : Q := inject_Z (Z.of_nat n).
Definition axis (r : request) : list Q * Q :=
  let '(lo, hi, n) := r in
  if Nat.eqb n 1 then ([(lo + hi) / 2], hi - lo)
  else let s := (hi - lo) / (nq n - 1) in (map (fun i => lo + nq i * s) (seq 0 n), s).

(** Cartesian product, the first axis varying slowest. *)
Fixpoint prod_axes (axes : list (list Q)) : list (list Q) :=
  match axes with
  | [] => [[]]
  | a :: rest => flat_map (fun x => map (cons x) (prod_axes rest)) a
  end.
Definition swap2 (p : list Q) : list Q := match p with a :: b :: r => b :: a :: r | _ => p end.

(** data.py:656-657: [meshgrid] in its default 'xy' indexing, flattened: the second axis varies
    slowest, then the first, then the others in order. *)
Definition mesh (axes : list (list Q)) : list (list Q) :=
  match axes with
  | a :: b :: rest => map swap2 (prod_axes (b :: a :: rest))
  | _ => prod_axes axes
  end.

(** data.py:585-588: inside the closed cell. *)
Fixpoint inside (steps centre v : list Q) : bool :=
  match steps, centre, v with
  | s :: steps', c :: centre', x :: v' =>
      Qle_bool x (c + s / 2) && Qle_bool (c - s / 2) x && inside steps' centre' v'
  | _, _, _ => true
  end.

Definition row_get (ks : list key) (r : list Q) (k : key) : Q :=
  match lookup ks r k with Some v => v | None => 0 end.
Definition place (ks bk : list key) (r : list Q) : list Q := map (row_get ks r) bk.

Definition mean (l : list Q) : Q := fold_right Qplus 0 l / nq (List.length l).
(** Mean of possibly non-finite values. *)
Fixpoint osum (l : list (option Q)) : option Q :=
  match l with [] => Some 0 | a :: l' => opt2 Qplus a (osum l') end.
Definition omean (l : list (option Q)) : option Q :=
  option_map (fun q => q / nq (List.length l)) (osum l).

Fixpoint index_of (k : key) (l : list key) : nat :=
  match l with [] => O | x :: l' => if String.eqb x k then O else S (index_of k l') end.

(** The rows (with their squared error) that fall into a cell. *)
Definition in_cell (ks bk : list key) (steps centre : list Q) (l : list (list Q * option Q)) :=
  filter (fun re => inside steps centre (place ks bk (fst re))) l.

(** data.py:580-599 and 674-681 for one cell: averages of the columns outside [bin_keys], cell
    centre for the others, mean squared error; [None] (nan in every column) for an empty cell.
    The error used is [self.error], the normalised one; it is kept squared here. *)
Definition bin_cell (ks bk : list key) (steps : list Q) (l : list (list Q * option Q)) (centre : list Q)
  : option (list Q * option Q) :=
  match in_cell ks bk steps centre l with
  | [] => None
  | m => Some (map (fun k => if mem k bk then nth (index_of k bk) centre 0
                             else mean (map (fun re => row_get ks (fst re) k) m)) ks,
               omean (map snd m))
  end.

(** data.py:660. *)
Definition chunk {A} (nprocs : nat) (l : list A) (n : nat) : list A :=
  let N := List.length l in
  let a := (n * N / nprocs)%nat in
  let b := (S n * N / nprocs)%nat in
  firstn (b - a) (skipn a l).

Fixpoint somes {A} (l : list (option A)) : list A :=
  match l with [] => [] | Some a :: l' => a :: somes l' | None :: l' => somes l' end.

(** The rebinned dataset: deep copy of self with new columns and explicit (squared) error
    (data.py:683-687); references and key dictionaries are those of self (a reference filled in
    lazily inside a worker process is lost).  The [err] field of [b_data] is not used: the explicit
    error is [b_errsq], squared. *)
Record binned := mkBinned { b_data : data; b_errsq : list (option Q) }.

(** data.py:601-687. *)
Definition bin_data (nprocs : nat) (d : data) (qk : qkeys) (to_bin : list (key * request)) (build_hkl : bool)
  : res binned :=
  let bk := bin_keys qk to_bin build_hkl in
  match map_res (bin_arg (tab d) qk to_bin) bk with
  | Err e => Err e
  | Ok args =>
      if forallb (fun k => mem k (keys (tab d))) bk then
        match bk with
        | [] => Err ValueError
        | _ =>
            match error_sq d with
            | Err e => Err e
            | Ok (es, _) =>
                let steps := map (fun a => snd (axis a)) args in
                let grid := mesh (map (fun a => fst (axis a)) args) in
                let l := List.combine (rows (tab d)) es in
                let outputs := map (fun n => map (bin_cell (keys (tab d)) bk steps l) (chunk nprocs grid n))
                                   (seq 0 nprocs) in
                let out := somes (List.concat outputs) in
                Ok (mkBinned (mkData (mkTable (keys (tab d)) (map fst out)) (dk d) (m0 d) (t0 d) None (time_norm d))
                             (map snd out))
            end
        end
      else Err KeyError
  end.

(** data.py:360-372 on the rebinned object. *)
Definition binned_intensity (b : binned) : res (list (option Q)) :=
  match intensity (b_data b) with Ok (v, _) => Ok v | Err e => Err e end.
(** data.py:375-395 on the rebinned object: the stored error is normalised once more. *)
Definition binned_error_sq (b : binned) : res (list (option Q)) :=
  match getcol (tab (b_data b)) (norm_key (b_data b)), reference (b_data b) with
  | Ok nrm, Ok (m, _) =>
      Ok (zip_with (fun e n => match e with
                               | Some q => option_map (fun v => v * (m * m)) (fdiv q (n * n))
                               | None => None end) (b_errsq b) nrm)
  | Err e, _ => Err e
  | _, Err e => Err e
  end.

(** Model of the dataset class of neutronpy: table operations.
    Source: /repo/neutronpy/data/data.py (class Data).
    Numbers are exact rationals (no floating point, no nan in the columns). *)
From Coq Require Import String List QArith Qabs Bool Arith.
From Verif Require Import Base.
Import ListNotations.
Local Open Scope string_scope.

Definition key := string.

(** data.py:95 [data_keys]: the column names playing the roles detector, monitor and
    time (a dict of three entries; only its values are used by [combine_data]). *)
Record dkeys := mkDKeys { kdet : key; kmon : key; ktime : key }.
Definition dk_list (d : dkeys) : list key := [kmon d; kdet d; ktime d].
(** data.py:95: the default [data_keys]. *)
Definition default_dkeys : dkeys := mkDKeys "detector" "monitor" "time".

(** data.py:94 [_data], an OrderedDict of columns, represented row-wise: [keys] are the
    column names in dictionary order and every row lists one value per column.
    Simplification: all columns have the same length (established for the constructor and
    the setters in ColumnsModel/ColumnsProps). *)
Record table := mkTable { keys : list key; rows : list (list Q) }.

(** [obj._data[key][i]] for a row. *)
Fixpoint lookup (ks : list key) (r : list Q) (k : key) : option Q :=
  match ks, r with
  | k' :: ks', v :: r' => if String.eqb k' k then Some v else lookup ks' r' k
  | _, _ => None
  end.

(** data.py:453-456: the values of the columns not named in [data_keys], in dictionary order. *)
Definition coords (dk ks : list key) (r : list Q) : list Q :=
  map snd (filter (fun kv => negb (mem (fst kv) dk)) (List.combine ks r)).

(** data.py:443-448: the tolerance argument: absent, a number, or a sequence. *)
Inductive tolarg := TolDefault | TolScalar (q : Q) | TolSeq (l : list Q).

(** data.py:443: [tols = 5e-4 for each of len(obj._data) - len(self.data_keys)]. *)
Definition default_tol : Q := 5 # 10000.

(** numpy broadcasting of [tols] against [n] coordinate values (data.py:457); a length
    that is neither [n] nor 1 is a ValueError. *)
Definition expand_tols (t : tolarg) (nkeys_obj n : nat) : res (list Q) :=
  let vec l := if Nat.eqb (List.length l) n then Ok l
               else match l with [x] => Ok (repeat x n) | _ => Err ValueError end in
  match t with
  | TolDefault => vec (repeat default_tol (nkeys_obj - 3))
  | TolScalar q => Ok (repeat q n)
  | TolSeq l => vec l
  end.

(** data.py:457: [(np.abs(orig_vals - new_vals) <= tols).all()] on equal lengths. *)
Fixpoint within (tols a b : list Q) : bool :=
  match tols, a, b with
  | t :: tols', x :: a', y :: b' => Qle_bool (Qabs (x - y)) t && within tols' a' b'
  | _, _, _ => true
  end.

(** data.py:457 with the shape checks.  Simplification: a shape mismatch between the two
    coordinate vectors is always a ValueError (numpy would broadcast a length of one). *)
Definition close (t : tolarg) (nkeys_obj : nat) (orig new : list Q) : res bool :=
  if Nat.eqb (List.length orig) (List.length new) then
    match expand_tols t nkeys_obj (List.length orig) with
    | Ok ts => Ok (within ts orig new)
    | Err e => Err e
    end
  else Err ValueError.

(** data.py:454-461: scan of the original rows for the first match ([break]). *)
Fixpoint scan (t : tolarg) (nkeys_obj : nat) (new : list Q) (origs : list (list Q)) (j : nat)
  : res (option nat) :=
  match origs with
  | [] => Ok None
  | o :: origs' =>
      match close t nkeys_obj o new with
      | Err e => Err e
      | Ok true => Ok (Some j)
      | Ok false => scan t nkeys_obj new origs' (S j)
      end
  end.

(** data.py:458-460: add the [data_keys] columns of the new row, by column name. *)
Definition add_row (dk ks_s ks_o : list key) (o r : list Q) : res (list Q) :=
  map_res (fun kv => if mem (fst kv) dk
                     then match lookup ks_o o (fst kv) with
                          | Some v => Ok (snd kv + v)
                          | None => Err KeyError
                          end
                     else Ok (snd kv))%Q (List.combine ks_s r).

(** data.py:463-464: the row appended when there is no match: every column of self, by name. *)
Definition append_row (ks_s ks_o : list key) (o : list Q) : res (list Q) :=
  map_res (fun k => match lookup ks_o o k with Some v => Ok v | None => Err KeyError end) ks_s.

(** data.py:452-464: the loop over the rows of [obj].  [orig] are the coordinates of the
    rows of self before the call; [tmp] is [_data_temp]. *)
Fixpoint comb_loop (t : tolarg) (dk_s ks_s dk_o ks_o : list key) (orig : list (list Q))
         (os tmp : list (list Q)) : res (list (list Q)) :=
  match os with
  | [] => Ok tmp
  | o :: os' =>
      match scan t (List.length ks_o) (coords dk_o ks_o o) orig 0 with
      | Err e => Err e
      | Ok (Some j) =>
          match upd_res j (add_row dk_s ks_s ks_o o) tmp with
          | Err e => Err e
          | Ok tmp' => comb_loop t dk_s ks_s dk_o ks_o orig os' tmp'
          end
      | Ok None =>
          match append_row ks_s ks_o o with
          | Err e => Err e
          | Ok r => comb_loop t dk_s ks_s dk_o ks_o orig os' (tmp ++ [r])
          end
      end
  end.

(** data.py:467: comparison used by np.lexsort; the LAST key passed is the primary one, hence
    the lists are compared from the reversed coordinate vectors. *)
Fixpoint lex_leb (a b : list Q) : bool :=
  match a, b with
  | x :: a', y :: b' => if Qeq_bool x y then lex_leb a' b' else Qle_bool x y
  | _, _ => true
  end.

Definition row_leb (dk ks : list key) (r1 r2 : list Q) : bool :=
  lex_leb (rev (coords dk ks r1)) (rev (coords dk ks r2)).

(** Stable sorting; np.lexsort is a stable indirect sort, whose result is determined by
    stability, so insertion sort of the rows models [value[ind]] applied to all columns
    (data.py:467-470). *)
Fixpoint insert_row (le : list Q -> list Q -> bool) (x : list Q) (l : list (list Q)) :=
  match l with
  | [] => [x]
  | y :: l' => if le x y then x :: l else y :: insert_row le x l'
  end.
Fixpoint sort_rows (le : list Q -> list Q -> bool) (l : list (list Q)) :=
  match l with
  | [] => []
  | x :: l' => insert_row le x (sort_rows le l')
  end.

(** A Data object as far as this file is concerned: the table, the key dict, the cached
    normalisations and the explicit error (data.py:92-132).  [err] is [_err]. *)
Record data := mkData {
  tab : table; dk : dkeys; m0 : Q; t0 : Q; err : option (list Q); time_norm : bool }.

(** data.py:425-477: [combine_data].  Returns the combined table. *)
Definition combine_table (self obj : data) (t : tolarg) : res table :=
  let ks := keys (tab self) in
  let dks := dk_list (dk self) in
  let orig := map (coords dks ks) (rows (tab self)) in
  match comb_loop t dks ks (dk_list (dk obj)) (keys (tab obj)) orig
                  (rows (tab obj)) (rows (tab self)) with
  | Err e => Err e
  | Ok tmp =>
      if Nat.eqb (List.length (filter (fun k => negb (mem k dks)) ks)) 0
      then Err TypeError
      else Ok (mkTable ks (sort_rows (row_leb dks ks) tmp))
  end.

(** data.py:472-475 ([ret=True]): a default-constructed Data whose table is replaced;
    default keys, m0 = t0 = 0 (nanmax of a zero column), no explicit error. *)
Definition combine_ret (self obj : data) (t : tolarg) : res data :=
  match combine_table self obj t with
  | Err e => Err e
  | Ok tb => Ok (mkData tb default_dkeys 0 0 None false)
  end.

(** data.py:476-477 ([ret=False]): only [self._data] is replaced. *)
Definition combine_inplace (self obj : data) (t : tolarg) : res data :=
  match combine_table self obj t with
  | Err e => Err e
  | Ok tb => Ok (mkData tb (dk self) (m0 self) (t0 self) (err self) (time_norm self))
  end.

(** Column access [self.data[key]] (KeyError when absent). *)
Definition col (tb : table) (k : key) : option (list Q) :=
  if mem k (keys tb) then
    Some (map (fun r => match lookup (keys tb) r k with Some v => v | None => 0 end) (rows tb))
  else None.

(** Assignment [self.data[key] = column] of an existing column, row-wise. *)
Fixpoint set_in_row (ks : list key) (r : list Q) (k : key) (v : Q) : list Q :=
  match ks, r with
  | k' :: ks', x :: r' => if String.eqb k' k then v :: r' else x :: set_in_row ks' r' k v
  | _, _ => r
  end.
Definition map_col (k : key) (f : Q -> Q) (tb : table) : table :=
  mkTable (keys tb)
    (map (fun r => match lookup (keys tb) r k with
                   | Some v => set_in_row (keys tb) r k (f v)
                   | None => r end) (rows tb)).

(** Saving datasets as text or HDF5 and loading the text: neutronpy/fileio/data.py:77-180, fileio/loaders/neutronpy.py. *)
From Coq Require Import String Ascii List Arith Bool QArith.
From Verif Require Import Base TextModel.
Import ListNotations.
Local Open Scope string_scope.

(** A column of a dataset; saving and loading can also leave a single number or None there. *)
Inductive cell := Col (l : list Q) | Scalar (q : Q) | PyNone.
(** The attribute _err: absent, None or an array. *)
Inductive errattr := NoErr | ErrNone | ErrVal (l : list Q).
Definition dict := list (string * string).
(** A dataset: _data, data_keys, Q_keys and file_header (None: no such attribute), _err.  m0, t0, time_norm, the instrument and the plot
    defaults are left out; they are not saved with the data. *)
Record dset := mkDset { cols : list (string * cell); dks : dict; qks : option dict; header : option (list string); uerr : errattr }.

(** d[k] = c for an OrderedDict. *)
Fixpoint put_col (k : string) (c : cell) (l : list (string * cell)) : list (string * cell) :=
  match l with [] => [(k, c)] | (k', c') :: r => if String.eqb k' k then (k', c) :: r else (k', c') :: put_col k c r end.

(** data/data.py:374-395: reading the error; only the effect on _err. *)
Definition read_error (D : dset) : dset :=
  mkDset (cols D) (dks D) (qks D) (header D) (match uerr D with NoErr => ErrNone | e => e end).
(** data/data.py:397-407: setting the error. *)
Definition set_error (e : list Q) (D : dset) : dset := mkDset (cols D) (dks D) (qks D) (header D) (ErrVal e).

(** data/data.py:195-206: comparing datasets.  Names are different from each other, so that sorted lists of names are equal if they have the
    same elements and length. *)
Fixpoint qlist_eqb (a b : list Q) : bool := match a, b with [] , [] => true | x :: a, y :: b => Qeq_bool x y && qlist_eqb a b | _, _ => false end.
(** Arrays of length one are compared with every element; arrays of different lengths are different (newer versions of numpy raise). *)
Definition cell_eqb (a b : cell) : bool :=
  match a, b with
  | Col [x], Col l | Col l, Col [x] => forallb (Qeq_bool x) l
  | Col l, Col m => qlist_eqb l m
  | Col l, Scalar q | Scalar q, Col l => forallb (Qeq_bool q) l
  | Scalar p, Scalar q => Qeq_bool p q
  | PyNone, PyNone => true
  | Col [], PyNone | PyNone, Col [] => true
  | _, _ => false
  end.
Fixpoint get_col (k : string) (l : list (string * cell)) : option cell := match l with [] => None | (k', c) :: r => if String.eqb k' k then Some c else get_col k r end.
Definition same_data (D E : dset) : bool :=
  Nat.eqb (List.length (cols D)) (List.length (cols E)) && forallb (fun '(k, _) => match get_col k (cols E) with Some _ => true | None => false end) (cols D)
  && forallb (fun '(k, c) => match get_col k (cols E) with Some c' => cell_eqb c c' | None => false end) (cols D).

(** str of a dictionary of texts.  Simplification: texts without quotes, backslashes and control characters. *)
Definition quote (s : string) : string := "'" ++ s ++ "'".
Definition dict_text (d : dict) : string := "{" ++ join ", " (map (fun '(k, v) => quote k ++ ": " ++ quote v) d) ++ "}".
(** eval of such a text; GenericException stands for everything else. *)
Fixpoint pairs (l : list string) : res dict :=
  match l with
  | [k; c; v; e] => if String.eqb c ": " && String.eqb e "}" then Ok [(k, v)] else Err GenericException
  | k :: c :: v :: s :: r => if String.eqb c ": " && String.eqb s ", " then bind (pairs r) (fun d => Ok ((k, v) :: d)) else Err GenericException
  | _ => Err GenericException
  end.
Definition eval_dict (s : string) : res dict :=
  match split "'" (lstrip s) with
  | ["{}"] => Ok []
  | "{" :: r => pairs r
  | _ => Err GenericException
  end.

(** A text file with data: the lines of the comment at its start, without the hash and the blank after it, and the rows of numbers.
    Simplification: numbers are written with 19 digits and read back the same. *)
Record datafile := mkFile { hlines : list string; body : list (list Q) }.
Definition files := string -> option datafile.
Definition write (f : files) (name : string) (d : datafile) : files := fun n => if String.eqb n name then Some d else f n.

(** data.py:108-129.  The lines of the old header have no newlines. *)
Definition header_lines (time : string) (D : dset) (names : list string) : list string :=
  List.app ["### NeutronPy ::: " ++ time ++ " ###"; ""; "data_keys = " ++ dict_text (dks D)]
 (List.app (match qks D with Some q => ["Q_keys = " ++ dict_text q] | None => [] end)
 (List.app [""; ""; "original_header = "]
 (List.app (map (String tab) (match header D with Some (h :: r) => h :: r | _ => [""] end))
  [""; ""; "npy_col_headers ="; join (String tab "") names]))).
(** data.py:131: np.vstack(...).T of the columns. *)
Definition cell_list (c : cell) : list Q := match c with Col l => l | Scalar q => [q] | PyNone => [0%Q] end.
Definition rows_of (l : list (list Q)) (n : nat) : list (list Q) := map (fun i => map (fun c => nth i c 0%Q) l) (seq 0 n).
Definition vstack (l : list cell) : res (list (list Q)) :=
  match map cell_list l with
  | [] => Err ValueError
  | c :: r => if forallb (fun d => Nat.eqb (List.length d) (List.length c)) r then Ok (rows_of (c :: r) (List.length c)) else Err ValueError
  end.
Definition is_none (c : cell) : bool := match c with PyNone => true | _ => false end.
(** data.py:100-133, for an instrument that is not saved.  The dataset is changed before the file is written; None cannot be formatted,
    when the header has been written.  The argument overwrite has no effect. *)
Definition save_ascii (time name : string) (overwrite : bool) (D : dset) (f : files) : dset * files * res unit :=
  let cols' := match uerr D with NoErr => cols D | ErrNone => put_col "error" PyNone (cols D) | ErrVal e => put_col "error" (Col e) (cols D) end in
  let names := List.app (map fst (cols D)) (match uerr D with NoErr => [] | _ => ["error"] end) in
  let D' := mkDset cols' (dks D) (qks D) (header D) (uerr D) in
  match vstack (map snd cols') with
  | Err e => (D', f, Err e)
  | Ok rs => let h := header_lines time D names in
             if existsb is_none (map snd cols') then (D', write f (name ++ ".npy") (mkFile h []), Err TypeError)
             else (D', write f (name ++ ".npy") (mkFile h rs), Ok tt)
  end.

(** HDF5 files: the names in the group "data", if there is one. *)
Definition h5files := string -> option (option (list string)).
(** create_dataset and create_group: a name can be used once (the error is a RuntimeError in older versions of h5py); no data is a TypeError. *)
Definition create (names : list string) (k : string) (c : cell) : res (list string) :=
  match c with PyNone => Err TypeError | _ => if mem k names then Err ValueError else Ok (List.app names [k]) end.
Fixpoint create_all (names : list string) (l : list (string * cell)) : list string * res unit :=
  match l with [] => (names, Ok tt) | (k, c) :: r => match create names k c with Ok ns => create_all ns r | Err e => (names, Err e) end end.
(** data.py:138-167.  file_header is a list and cannot be encoded, so it is left out. *)
Definition save_hdf5 (name : string) (overwrite : bool) (D : dset) (f : h5files) : h5files * res unit :=
  let n := name ++ ".h5" in
  let old := if overwrite then None else match f n with Some (Some l) => Some l | _ => None end in
  match old with
  | Some _ => (f, Err ValueError)
  | None =>
    let start := List.app ["data_keys"] (match qks D with Some _ => ["Q_keys"] | None => [] end) in
    let '(ns, r) := create_all start (List.app (cols D) (match uerr D with NoErr => [] | ErrNone => [("error", PyNone)] | ErrVal e => [("error", Col e)] end)) in
    ((fun m => if String.eqb m n then Some (Some ns) else f m), r)
  end.

(** loaders/neutronpy.py:87-94: the header lines and the names of the columns.  GenericException stands for StopIteration. *)
Fixpoint scan_header (ls : list string) : res (list string * option (list string)) :=
  match ls with
  | [] => Ok ([], None)
  | l :: r => if contains "npy_col_headers" l
              then match r with
                   | [] => Err GenericException
                   | n :: r' => bind (scan_header r') (fun '(h, c) => Ok (h, match c with Some _ => c | None => Some (tl (words n)) end))
                   end
              else bind (scan_header r) (fun '(h, c) => Ok (if has "#" l then remove "# " l :: h else h, c))
  end.
(** loaders/neutronpy.py:96: genfromtxt drops dimensions of length one; iterating over a single number raises. *)
Definition columns (b : list (list Q)) : res (list cell) :=
  match b with
  | [] => Ok []
  | [[x]] => Err TypeError
  | [r] => Ok (map Scalar r)
  | r :: rs => if forallb (fun s => Nat.eqb (List.length s) (List.length r)) rs
               then if Nat.eqb (List.length r) 1 then Ok (map Scalar (List.concat b)) else Ok (map Col (rows_of b (List.length r)))
               else Err ValueError
  end.
(** loaders/neutronpy.py:104-114: the last line with "original_header", Q_keys, data_keys. *)
Fixpoint read_header (build : bool) (n : nat) (ls : list string) (st : option nat * option dict * dict) : res (option nat * option dict * dict) :=
  match ls with
  | [] => Ok st
  | l :: r =>
    let '(s, q, d) := st in
    let s := if contains "original_header" l then Some (n + 1)%nat else s in
    bind (if build && contains "Q_keys" l then bind (eval_dict (remove "Q_keys =" l)) (fun x => Ok (Some x)) else Ok q) (fun q =>
    bind (if contains "data_keys" l then eval_dict (remove "data_keys = " l) else Ok d) (fun d => read_header build (n + 1) r (s, q, d)))
  end.
(** data/data.py:95-96. *)
Definition default_dks : dict := [("monitor", "monitor"); ("detector", "detector"); ("time", "time")].
Definition default_qks : dict := [("h", "h"); ("k", "k"); ("l", "l"); ("e", "e"); ("temp", "temp")].
(** loaders/neutronpy.py:73-127. *)
Definition load_ascii (build : bool) (F : datafile) : res dset :=
  bind (scan_header (map (append "# ") (hlines F))) (fun '(h, c) =>
  match c with
  | None => Err UnboundLocalError
  | Some ch =>
    bind (columns (body F)) (fun cs =>
    bind (read_header build 0 h (None, Some default_qks, default_dks)) (fun '(s, q, d) =>
    match s with
    | None => Err UnboundLocalError
    | Some s => Ok (mkDset (fold_left (fun l '(k, c) => put_col k c l) (List.combine ch cs) []) d q (Some (skipn s (firstn (List.length h - 3) h))) NoErr)
    end))
  end).
(** loaders/neutronpy.py:16-39, for names that do not end in h5. *)
Definition load (build : bool) (name : string) (f : files) : res dset :=
  match f name with
  | None => Err OSError
  | Some F => match hlines F with
              | l :: _ => if contains "NeutronPy" l then load_ascii build F else Err OSError
              | [] => Err OSError
              end
  end.

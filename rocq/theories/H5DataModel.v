(** Saving a dataset, with its instrument, as hdf5 and loading it: neutronpy/fileio/data.py:138-173, fileio/instrument.py:487-510 and 669-718,
    fileio/loaders/neutronpy.py:30-78, data/data.py:208-268. *)
From Coq Require Import String Ascii List Arith Bool QArith.
From Verif Require Import Base TextModel InstrFileModel H5InstrModel DataFileModel.
Import ListNotations.
Local Open Scope string_scope.

(** What a dataset has as its attribute instrument: nothing, a triple-axis or a time-of-flight instrument, or something else. *)
Inductive attached := NoInstrument | TripleAxis (I : inst) | TimeOfFlight | SomethingElse.
(** The group "data" of a file: the attributes of its groups data_keys and Q_keys, and its datasets in the order they were made.
    Simplification: names are without slashes, which would make groups of their own; texts of the keys are not empty. *)
Record dgroup := mkG { g_dks : dict; g_qks : option dict; g_cols : list (string * cell) }.
(** A file: the group "data", the other groups that are not of instruments, the group "instrument". *)
Record h5 := mkF { f_data : option dgroup; f_rest : list string; f_instr : option groups }.
Definition h5s := string -> option h5.
Definition store (f : h5s) (name : string) (h : h5) : h5s := fun n => if String.eqb n name then Some h else f n.

(** data.py:163-167: create_dataset raises for a name in use (here the two groups or an earlier dataset) and for None; what was made before stays. *)
Fixpoint make_all (used : list string) (l : list (string * cell)) : list (string * cell) * res unit :=
  match l with
  | [] => ([], Ok tt)
  | (k, c) :: r => match c with
                   | PyNone => ([], Err TypeError)
                   | _ => if mem k used then ([], Err ValueError)
                          else let '(m, o) := make_all (k :: used) r in ((k, c) :: m, o)
                   end
  end.
Definition own_errors (D : dset) : list (string * cell) := match uerr D with NoErr => [] | ErrNone => [("error", PyNone)] | ErrVal e => [("error", Col e)] end.
(** data.py:138-167.  Mode w empties the file, mode a keeps what is there; the list file_header has no encode and is left out. *)
Definition save_group (name : string) (overwrite : bool) (D : dset) (f : h5s) : h5s * res unit :=
  let n := name ++ ".h5" in
  let h := match f n with Some h => if overwrite then mkF None [] None else h | None => mkF None [] None end in
  match f_data h with
  | Some _ => (f, Err ValueError)
  | None => let '(m, o) := make_all ("data_keys" :: match qks D with Some _ => ["Q_keys"] | None => [] end) (List.app (cols D) (own_errors D)) in
            (store f n (mkF (Some (mkG (dks D) (qks D) m)) (f_rest h) (f_instr h)), o)
  end.
(** instrument.py:507-510 with 572-612 and 694-695: a time-of-flight instrument is written by a routine that does nothing for hdf5, and
    anything else by none. *)
Definition as_instr (h : h5) : h5file := mkH5 (List.app (match f_data h with Some _ => ["data"] | None => [] end) (f_rest h)) (f_instr h).
Definition save_attached (a : attached) (name : string) (f : h5s) : h5s * res unit :=
  match a with
  | TripleAxis J => let '(f', o) := save_h5 J name false (fun n => option_map as_instr (f n)) in
                    (match f' (name ++ ".h5"), f (name ++ ".h5") with
                     | Some h', Some h => store f (name ++ ".h5") (mkF (f_data h) (f_rest h) (instrument h'))
                     | Some h', None => store f (name ++ ".h5") (mkF None [] (instrument h'))
                     | None, _ => f
                     end, o)
  | _ => (f, Ok tt)
  end.
(** data.py:138-173: reading the attribute instrument of a dataset without one is an AttributeError, which is caught, as are those while it is saved. *)
Definition save_data_h5 (name : string) (overwrite : bool) (save_instr : bool) (D : dset) (a : attached) (f : h5s) : h5s * res unit :=
  match save_group name overwrite D f with
  | (f', Err e) => (f', Err e)
  | (f', Ok _) => if save_instr then match save_attached a name f' with
                                     | (g, Err AttributeError) => (g, Ok tt)
                                     | r => r
                                     end
                  else (f', Ok tt)
  end.

(** Members of a group are listed in the order of their names (of bytes). *)
Fixpoint insert (p : string * cell) (l : list (string * cell)) : list (string * cell) :=
  match l with [] => [p] | q :: r => if String.leb (fst p) (fst q) then p :: l else q :: insert p r end.
Definition by_name (l : list (string * cell)) : list (string * cell) := fold_right insert [] l.
(** str of the bytes an attribute comes back as, for texts without quotes and backslashes. *)
Definition bytes_text (s : string) : string := "b'" ++ s ++ "'".
Definition bytes_dict (d : dict) : dict := map (fun p => (fst p, bytes_text (snd p))) d.
(** loaders/neutronpy.py:61-75: np.copy of a group is the array of the names in it, which are none here.  A dataset Q_keys has
    no attributes; without Q_keys the warning leaves the ones of a new dataset.  file_header and _err are not set. *)
Definition load_group5 (build : bool) (g : dgroup) : dset :=
  mkDset (by_name (("data_keys", Col []) :: List.app (match g_qks g with Some _ => [("Q_keys", Col [])] | None => [] end) (g_cols g)))
         (bytes_dict (g_dks g))
         (if build then match g_qks g with
                       | Some q => Some (bytes_dict q)
                       | None => if mem "Q_keys" (map fst (g_cols g)) then Some [] else Some default_qks
                       end
          else Some default_qks) None NoErr.
(** loaders/neutronpy.py:30-31 and 43-78, for names that end in h5: the dataset and, if asked for, the instrument. *)
Definition load_data_h5 (build load_instr : bool) (name : string) (f : h5s) : res (dset * option inst) :=
  match f name with
  | None => Err OSError
  | Some h => match f_data h with
              | None => Err KeyError
              | Some g => if load_instr then bind (load_h5 name (fun n => option_map as_instr (f n))) (fun I => Ok (load_group5 build g, Some I))
                          else Ok (load_group5 build g, None)
              end
  end.

(** data/data.py:219-247 and 249-344: data.detector, data.monitor, data.time through data_keys; data.h, .k, .l, .e, .temp through Q_keys.  An absent
    dictionary Q_keys is an AttributeError. *)
Fixpoint look (k : string) (d : dict) : option string := match d with [] => None | (k', v) :: r => if String.eqb k' k then Some v else look k r end.
Definition column_of (D : dset) (o : option string) : res cell :=
  match o with None => Err KeyError | Some c => match get_col c (cols D) with None => Err KeyError | Some x => Ok x end end.
Definition role (D : dset) (k : string) : res cell := column_of D (look k (dks D)).
Definition coordinate (D : dset) (k : string) : res cell := match qks D with None => Err AttributeError | Some q => column_of D (look k q) end.

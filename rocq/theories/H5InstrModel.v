(** Saving a triple-axis instrument as hdf5 and loading it: neutronpy/fileio/instrument.py:428-446, 572-612. *)
From Coq Require Import String Ascii List Arith Bool.
From Verif Require Import Base TextModel InstrFileModel.
Import ListNotations.
Local Open Scope string_scope.

(** A file: the groups that have nothing to do with instruments, by name, and the group instrument: its own attributes under the name "" and its subgroups
    with theirs.  A stored [Text] is a text of bytes.  Simplification: a list of whole and fractional numbers, which becomes an array of floats, keeps the
    texts of its numbers. *)
Definition groups := list (string * list (string * value)).
Record h5file := mkH5 { rest : list string; instrument : option groups }.
Definition files := string -> option h5file.
Definition write (f : files) (name : string) (h : h5file) : files := fun n => if String.eqb n name then Some h else f n.

(** attrs.create: no hdf5 type for None. *)
Definition stored (v : value) : res value :=
  match v with
  | Other s => if String.eqb s "None" then Err TypeError else Ok v
  | Lst l | Arr l => Ok (Arr l)
  | _ => Ok v
  end.
(** instrument.py:594-609, one group: missing attributes are left out; what was stored before an exception remains. *)
Fixpoint attributes (I : inst) (g : string) (ks : list string) : list (string * value) * res unit :=
  match ks with
  | [] => ([], Ok tt)
  | k :: ks => match val I g k with
               | None => attributes I g ks
               | Some v => match stored v with
                           | Err e => ([], Err e)
                           | Ok w => let '(l, o) := attributes I g ks in ((k, w) :: l, o)
                           end
               end
  end.
(** instrument.py:589-612: the groups exist from the beginning; a group that stays empty is deleted.  An instrument without any attribute of its own, for
    which this fails, does not occur: hcol is always there. *)
Fixpoint fill (I : inst) (todo : list (string * list string)) : groups * res unit :=
  match todo with
  | [] => ([], Ok tt)
  | (g, ks) :: todo => match attributes I g ks with
                       | (l, Err e) => ((g, l) :: map (fun p => (fst p, [])) todo, Err e)
                       | (l, Ok _) => let '(r, o) := fill I todo in
                                      (match l with [] => if String.eqb g "" then (g, l) :: r else r | _ => (g, l) :: r end, o)
                       end
  end.
(** instrument.py:575-587: mode w empties the file, mode a opens or creates it; create_group raises if the group is there. *)
Definition save_h5 (I : inst) (name : string) (overwrite : bool) (f : files) : files * res unit :=
  let n := name ++ ".h5" in
  let h := match f n with Some h => if overwrite then mkH5 [] None else h | None => mkH5 [] None end in
  match instrument h with
  | Some _ => (f, Err ValueError)
  | None => let '(gs, o) := fill I saved in (write f n (mkH5 (rest h) (Some gs)), o)
  end.

(** instrument.py:438-439: the attributes of the instrument itself are not decoded; bytes are given by their text in Python, for texts without quotes
    and backslashes. *)
Definition undecoded (v : value) : value := match v with Text s => Other ("b'" ++ s ++ "'") | _ => v end.
(** instrument.py:441-446.  The library gives the groups in alphabetical order; the assignments commute, and only one kind of exception can occur. *)
Definition load_group (I : inst) (g : string) (l : list (string * value)) : res inst :=
  if String.eqb g "" then Ok (fold_left (fun I p => put I "" (fst p) (undecoded (snd p))) l I)
  else if sub I g then Ok (fold_left (fun I p => put I g (fst p) (attr_set g (fst p) (snd p))) l I) else Err AttributeError.
Fixpoint load_groups (I : inst) (gs : groups) : res inst :=
  match gs with [] => Ok I | (g, l) :: gs => bind (load_group I g l) (fun I => load_groups I gs) end.
(** instrument.py:428-446. *)
Definition load_h5 (name : string) (f : files) : res inst :=
  match f name with
  | None => Err OSError
  | Some h => match instrument h with None => Err KeyError | Some gs => load_groups default gs end
  end.

(** Loading data files: neutronpy/fileio/data.py:11-74, 183-220.  The loaders are parameters. *)
From Coq Require Import String Ascii List Arith Bool QArith.
From Verif Require Import Base DataModel TextModel.
Import ListNotations.
Local Open Scope string_scope.

(** data.py:183-220.  [file]: the lines of the file, if it exists; readline gives an empty text at the end. *)
Definition detect_filetype (name : string) (file : option (list string)) : res string :=
  if String.eqb (lower (last_chars 3 name)) "nxs" then Ok "grasp"
  else if String.eqb (lower (last_chars 4 name)) "iexy" || String.eqb (lower (last_chars 3 name)) "spe" || String.eqb (lower (last_chars 3 name)) "xye" || String.eqb (last_chars 4 name) "xyie" then Ok "dcs_mslice"
  else if String.eqb (lower (last_chars 2 name)) "h5" || String.eqb (lower (last_chars 3 name)) "npy" then Ok "neutronpy"
  else match file with
       | None => Err OSError
       | Some ls =>
         let first := nth 0 ls "" in
         let second := nth 1 ls "" in
         if contains "#ICE" first then Ok "ice"
         else if contains "# scan" first then Ok "spice"
         else if contains "GRASP" (upper first) then Ok "grasp"
         else if contains "Filename" second then Ok "icp"
         else if contains "RRR" first || contains "AAA" first || contains "VVV" first then Ok "mad"
         else if contains "NeutronPy" first then Ok "neutronpy"
         else Err ValueError
       end.

(** data.py:42-48. *)
Definition filetypes : list string := ["dcs_mslice"; "grasp"; "ice"; "icp"; "mad"; "neutronpy"; "spice"].
(** The argument tols: a number or a sequence. *)
Inductive tolerance := TNum (q : Q) | TSeq (l : list Q).
(** data.py:60-64, 66-67: one file.  [loader t n]: what the loader of type t makes of the file n. *)
Definition load_one (loader : string -> string -> res data) (filetype name : string) : res data :=
  if mem (lower filetype) filetypes then match loader (lower filetype) name with Err KeyError => Err KeyError | r => r end else Err KeyError.
Definition tol_seq (t : tolerance) (d : data) : list Q := match t with TNum q => repeat q (List.length (keys (DataModel.tab d)) - 3) | TSeq l => l end.
(** data.py:53-74. *)
Fixpoint load_files (detect : string -> res string) (loader : string -> string -> res data) (files : list string) (filetype : string) (tols : tolerance) (acc : option data) : res data :=
  match files with
  | [] => match acc with Some d => Ok d | None => Err UnboundLocalError end
  | n :: r =>
    bind (if String.eqb filetype "auto" then detect n else Ok filetype) (fun filetype =>
    bind (load_one loader filetype n) (fun d =>
    let ts := tol_seq tols d in
    bind (match acc with None => Ok d | Some a => combine_inplace a d (TolSeq ts) end) (fun a =>
    load_files detect loader r filetype (TSeq ts) (Some a))))
  end.
Definition load_data (detect : string -> res string) (loader : string -> string -> res data) (files : list string) (filetype : string) (tols : tolerance) : res data :=
  load_files detect loader files filetype tols None.

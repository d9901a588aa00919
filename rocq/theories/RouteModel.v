(** Which routine reads a file: load_data, /repo/neutronpy/fileio/data.py:53-62, and the methods load of the loaders.
    Files that are read as text hold text. *)
From Coq Require Import String Ascii List Arith Bool.
From Verif Require Import Base TextModel DetectModel.
From Verif Require GridModel.
Import ListNotations.
Local Open Scope string_scope.
Local Open Scope list_scope.

Inductive routine := GraspNxs | GraspDat | Iexy | Xyie | Spe | Xye | NpyHdf5 | NpyAscii | IceText | IcpText | MadText | SpiceText.
(** loaders/grasp.py:27-35 *)
Definition grasp (name : string) (file : list string) : res routine :=
  if String.eqb (lower (last_chars 3 name)) "nxs" then Ok GraspNxs
  else if String.eqb (lower (last_chars 3 name)) "dat" || contains "GRASP" (nth 0 file "") then Ok GraspDat
  else Err OSError.
(** loaders/neutronpy.py:33-41 *)
Definition neutronpy (name : string) (file : list string) : res routine :=
  if String.eqb (lower (last_chars 2 name)) "h5" then Ok NpyHdf5
  else if contains "NeutronPy" (nth 0 file "") then Ok NpyAscii
  else Err OSError.
(** loaders/dcs_mslice.py:27-32 *)
Definition dcs_mslice (name : string) (file : list string) : res routine :=
  bind (GridModel.subtype name file) (fun s =>
  if String.eqb s "iexy" then Ok Iexy else if String.eqb s "xyie" then Ok Xyie else if String.eqb s "spe" then Ok Spe else if String.eqb s "xye" then Ok Xye else Err KeyError).
(** data.py:42-48, 61-62; a missing file is an OSError of every loader, HDF5 files included. *)
Definition load_with (t name : string) (file : option (list string)) : res routine :=
  match file with
  | None => if mem t filetypes then Err OSError else Err KeyError
  | Some ls =>
    if String.eqb t "dcs_mslice" then dcs_mslice name ls
    else if String.eqb t "grasp" then grasp name ls
    else if String.eqb t "ice" then Ok IceText
    else if String.eqb t "icp" then Ok IcpText
    else if String.eqb t "mad" then Ok MadText
    else if String.eqb t "neutronpy" then neutronpy name ls
    else if String.eqb t "spice" then Ok SpiceText
    else Err KeyError
  end.
(** data.py:54-62 for one file and filetype 'auto'. *)
Definition auto (name : string) (file : option (list string)) : res routine := bind (detect_filetype name file) (fun t => load_with t name file).

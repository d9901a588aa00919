(** Magnetic unit cells: neutronpy/crystal/material.py MagneticUnitCell and the lines of Material.__init__ that make one; neutronpy/crystal/atom.py MagneticAtom. *)
From Coq Require Import String List ZArith Reals.
From Verif Require Import Base LinAlg LatticeModel SymModel StructModel.
Import ListNotations.
Local Open Scope R_scope.

(** crystal/atom.py:83-87. *)
Record mag_atom := mkMag { g_ion : string; g_pos : v3; g_moment : v3; g_occ : R }.
(** An entry of the list of atoms; absent keys are [None]. *)
Record mag_entry := mkEntry { n_ion : option string; n_pos : option v3; n_moment : option v3; n_occ : option R }.
(** The dictionary of a cell; the lattice, if there, has lengths and angles. *)
Record mag_dict := mkDict { d_chirality : option R; d_ph : option R; d_group : option symbol_arg; d_atoms : option (list mag_entry); d_propagation : option v3; d_lattice : option lattice }.
(** A cell: [None] for attributes that are not set. *)
Record mag_cell := mkCell { l_chirality : option R; l_phase : option R; l_group : option group; l_atoms : list mag_atom; l_propagation : v3; l_lattice : lattice }.

(** material.py:33-36 and 39-42: an atom of an entry at a position. *)
Definition mag_atom_of (n : mag_entry) (p : v3) : res mag_atom :=
  bind (StructModel.get (n_ion n)) (fun i => bind (StructModel.get (n_moment n)) (fun m => bind (StructModel.get (n_occ n)) (fun o => Ok (mkMag i p m o)))).
(** material.py:30-36. *)
Fixpoint group_mag (g : group) (l : list mag_entry) : res (list mag_atom) :=
  match l with
  | [] => Ok []
  | n :: r => bind (StructModel.get (n_pos n)) (fun p => bind (map_res (mag_atom_of n) (symmetrize_real g p)) (fun a => bind (group_mag g r) (fun b => Ok (List.app a b))))
  end.
(** material.py:38-42. *)
Fixpoint plain_mag (l : list mag_entry) : res (list mag_atom) :=
  match l with
  | [] => Ok []
  | n :: r => bind (StructModel.get (n_pos n)) (fun p => bind (mag_atom_of n p) (fun a => bind (plain_mag r) (fun b => Ok (a :: b))))
  end.
(** material.py:22-48: chirality and phase are set to 0 when their keys are absent and not set at all when they are there. *)
Definition magnetic_unit_cell (d : mag_dict) : res mag_cell :=
  bind (match d_group d with
        | Some s => bind (space_group s) (fun g => bind (StructModel.get (d_atoms d)) (fun l => bind (group_mag g l) (fun a => Ok (Some g, a))))
        | None => bind (StructModel.get (d_atoms d)) (fun l => bind (plain_mag l) (fun a => Ok (None, a)))
        end) (fun ga =>
  bind (StructModel.get (d_propagation d)) (fun k => bind (StructModel.get (d_lattice d)) (fun l =>
  Ok (mkCell (match d_chirality d with None => Some 0 | Some _ => None end) (match d_ph d with None => Some 0 | Some _ => None end) (fst ga) (snd ga) k l)))).
(** material.py:251-252: the key looked for is magnetic_unit_cell, the one read magnetic_cell.  The attribute, if any. *)
Definition material_magnetic (has_unit_cell_key : bool) (magnetic_cell : option mag_dict) : res (option mag_cell) :=
  if has_unit_cell_key then bind (StructModel.get magnetic_cell) (fun d => bind (magnetic_unit_cell d) (fun c => Ok (Some c))) else Ok None.

(** GeneralInstrument.get_resolution_params, neutronpy/instrument/general.py:151-225, on a triple-axis instrument.
    The four entries of hkle are numbers.  The printed index is left out. *)
From Coq Require Import String List ZArith Reals.
From Verif Require Import Base MatInv TasModel MatModel HistModel ToolsModel.
Import ListNotations.
Local Open Scope R_scope.

(** general.py:178-183: the first stored point equal to the one asked for. *)
Fixpoint find_point (h k l w : R) (i : nat) (ps : list (LinAlg.v3 * R)) : option nat :=
  match ps with
  | [] => None
  | (p, e) :: r => if (if Req_EM_T (LinAlg.vx p) h then if Req_EM_T (LinAlg.vy p) k then if Req_EM_T (LinAlg.vz p) l then if Req_EM_T e w then true else false else false else false else false)
                   then Some i else find_point h k l w (S i) r
  end.
(** The entries as numbers, if none of the sixteen is nan. *)
Definition numbers (A : omat) : option MatModel.mat :=
  if forallb (fun i => forallb (fun j => match A i j with Some _ => true | None => false end) (seq 0 4)) (seq 0 4)
  then Some (fun i j => match A i j with Some x => x | None => 0 end) else None.
(** general.py:189-192: the matrix without its third row and column. *)
Definition flat (A : MatModel.mat) : MatModel.mat := fun i j => A (skip 2 i) (skip 2 j).
Definition flat_o (A : omat) : omat := fun i j => A (skip 2 i) (skip 2 j).
Record params := mkP { p_R0 : option R; p_xx : option R; p_yy : option R; p_xy : option R }.
(** One of the three cases of general.py:194-225: [k] is the axis that is left out, [i], [j] those that stay.
    For a diagonal entry that is not positive every result is [None]; numpy has nan for the prefactor only, if it is negative. *)
Definition in_plane (o : outcome) (k i j : nat) (mode : string) : option params :=
  let R0 := match o_R0 o, flat_o (o_RMS o) k k with
            | Some r, Some b => if Rlt_dec 0 b then Some (sqrt (2 * PI / b) * r) else None
            | _, _ => None
            end in
  if String.eqb mode "project" then
    Some (match R0, numbers (o_RMS o) with
          | Some r, Some A => match project k r (flat A) with Some (r, p) => mkP (Some r) (Some (p 0 0)%nat) (Some (p 1 1)%nat) (Some (p 0 1)%nat) | None => mkP None None None None end
          | _, _ => mkP None None None None
          end)
  else if String.eqb mode "slice" then Some (mkP R0 (o_RMS o i i) (o_RMS o j j) (o_RMS o i j))
  else None.
(** general.py:194-225.  selfR0 is assigned only for the two-dimensional array of one point. *)
Definition params_of (one : bool) (o : outcome) (plane mode : string) : res (option params) :=
  let go k i j := if one then Ok (in_plane o k i j mode) else Err UnboundLocalError in
  if String.eqb plane "QxQy" then go 2%nat 0%nat 1%nat
  else if String.eqb plane "QxW" then go 1%nat 0%nat 3%nat
  else if String.eqb plane "QyW" then go 0%nat 1%nat 3%nat
  else Ok None.
(** general.py:172-187. *)
Definition get_params (I : inst) (h k l w : R) (plane mode : string) : option (inst * res (option params)) :=
  let look J := match i_last J, i_res J with
                | Some hs, Some rs =>
                    (J, match find_point h k l w 0 (points_of hs) with
                        | None => Err InstrumentError
                        | Some i => match nth_error rs i with
                                    | None => Err IndexError
                                    | Some o => params_of (Nat.eqb (length rs) 1) o plane mode
                                    end
                        end)
                | _, _ => (J, Err AttributeError)
                end in
  match i_res I with
  | Some _ => Some (look I)
  | None => match calc_resolution I (mkQ (Scalar h) (Scalar k) (Scalar l) (Scalar w)) with
            | None => None
            | Some (J, Err e) => Some (J, Err e)
            | Some (J, Ok _) => Some (look J)
            end
  end.

(** Normalised intensity and error in binary64 arithmetic: neutronpy/data/data.py:359-395, with each operation rounded.  The exact model is
    [intensity] in OpsModel.v. *)
From Coq Require Import List Reals.
From Verif Require Import Base EnergyFloatModel.
Import ListNotations.
Local Open Scope R_scope.

(** One measured point: counts and norm (monitor or time). *)
Definition point := (R * R)%type.
(** data.py:122-123, 367, 371: np.nanmax of the norms; ValueError when there is none.  Comparisons do not round. *)
Definition larger (x y : R) : R := if Rle_dec x y then y else x.
Definition largest (l : list R) : res R := match l with [] => Err ValueError | x :: r => Ok (fold_left larger r x) end.
(** data.py:368, 372: counts / norm * reference from left to right; [None]: the norm is zero, the result is nan or inf.  Overflow is not
    modelled. *)
Definition scaled (x n r : R) : option R := if Req_EM_T n 0 then None else Some (rnd (rnd (x / n) * r)).
(** data.py:359-372, of data whose reference was not set otherwise. *)
Definition intensity_fl (l : list point) : res (list (option R)) :=
  bind (largest (map snd l)) (fun r => Ok (map (fun p => scaled (fst p) (snd p) r) l)).
(** data.py:383, 386: the root of the counts; [None] is nan. *)
Definition root_fl (x : R) : option R := if Rle_dec 0 x then Some (rnd (sqrt x)) else None.
(** data.py:374-395, without errors given by the user. *)
Definition error_fl (l : list point) : res (list (option R)) :=
  bind (largest (map snd l)) (fun r => Ok (map (fun p => match root_fl (fst p) with Some e => scaled e (snd p) r | None => None end) l)).

(** Integrated intensity and peak position in binary64 arithmetic: neutronpy/data/analysis.py:48-114.  The exact model is in AnalysisModel.v. *)
From Coq Require Import List Reals.
From Verif Require Import Base EnergyFloatModel.
Import ListNotations.
Local Open Scope R_scope.

(** The way numpy's sum adds up an array: which positions are added two at a time, chosen by the number of entries. *)
Inductive shape := At (i : nat) | Both (s t : shape).
Fixpoint add_up (s : shape) (l : list R) : R := match s with At i => nth i l 0 | Both s t => rnd (add_up s l + add_up t l) end.
Definition sum_fl (order : nat -> shape) (l : list R) : R := match l with [] => 0 | _ => add_up (order (List.length l)) l end.
(** np.trapz: (np.diff(x) * (y[1:] + y[:-1]) / 2.0).sum().  Overflow is not modelled. *)
Fixpoint pieces (y x : list R) : list R :=
  match y, x with
  | y0 :: ((y1 :: _) as y'), x0 :: ((x1 :: _) as x') => rnd (rnd (rnd (x1 - x0) * rnd (y1 + y0)) / 2) :: pieces y' x'
  | _, _ => []
  end.
Definition trapz_fl (order : nat -> shape) (y x : list R) : R := sum_fl order (pieces y x).
(** analysis.py:73: the background, one number, is subtracted from the selected intensities. *)
Definition net_fl (I : list R) (bg : R) : list R := map (fun v => rnd (v - bg)) I.
(** analysis.py:71-76: [columns] are the selected entries of the columns of get_keys, [I] those of the intensity.  np.squeeze makes a number of a
    single point, on which np.diff raises ValueError. *)
Definition integrate_fl (order : nat -> shape) (columns : list (list R)) (I : list R) (bg : R) : res R :=
  match columns, I with
  | _ :: _, [_] => Err ValueError
  | _, _ => Ok (fold_left (fun r x => rnd (r + trapz_fl order (net_fl I bg) x)) columns 0)
  end.
(** analysis.py:78-114: the position along the column with the selected entries [x]; [columns] are those of get_keys(hkle), [hkle_columns] those integrated
    by self.integrate(bounds, background), which is not given hkle.  A total of 0 makes the result nan or infinite ([None]).  [columns] is not empty: it contains [x]. *)
Definition position_fl (order : nat -> shape) (columns hkle_columns : list (list R)) (x I : list R) (bg : R) : res (option R) :=
  bind (integrate_fl order hkle_columns I bg) (fun total =>
  if Req_EM_T total 0 then Ok None
  else Ok (Some (fold_left (fun r c => rnd (r + rnd (trapz_fl order (map (fun p => rnd (fst p * snd p)) (combine x (net_fl I bg))) c / total))) columns 0))).

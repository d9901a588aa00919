(** One panel of the picture of projections: PlotInstrument.plot_slice, /repo/neutronpy/instrument/plot.py:371-417. *)
From Coq Require Import String Ascii List ZArith Reals.
From Verif Require Import Base MatModel DescribeModel.
Import ListNotations.
Local Open Scope R_scope.

(** The dictionary of calc_projections with the curves of the points in order, general.py:49-54, of finite numbers. *)
Definition curves := list (string * list (list (R * R))).
Fixpoint of_key (k : string) (c : curves) : res (list (list (R * R))) :=
  match c with [] => Err KeyError | (k', v) :: c => if String.eqb k k' then Ok v else of_key k c end.
(** projections[key][num] *)
Definition curve_at (c : curves) (k : string) (num : nat) : res (list (R * R)) :=
  bind (of_key k c) (fun l => match nth_error l num with Some p => Ok p | None => Err IndexError end).
(** np.min and np.max: ValueError without elements. *)
Definition np_min (l : list R) : res R := match l with [] => Err ValueError | x :: l => Ok (fold_left Rmin l x) end.
Definition np_max (l : list R) : res R := match l with [] => Err ValueError | x :: l => Ok (fold_left Rmax l x) end.
(** 'W' in qslice *)
Fixpoint has_W (s : string) : bool := match s with EmptyString => false | String c s => Ascii.eqb c "W"%char || has_W s end.

Record panel := mkPanel {
  p_fill : list (R * R); p_line : list (R * R);
  p_xlim : R * R; p_ylim : R * R;
  p_dx : Z; p_dy : Z; (* the widths in the labels, three decimals *)
  p_energy : bool (* the second axis is labelled as the energy *) }.
(** plot.py:396-417; the largest of the single width kept in dQ1 (398, 404, 410) is this width.  Colours, and the orientation vectors
    repeated in the labels, are left out. *)
Definition plot_slice (c : curves) (qslice : string) (num : nat) : res panel :=
  bind (curve_at c qslice num) (fun p =>
  bind (curve_at c (qslice ++ "Slice")%string num) (fun s =>
  bind (np_max (map fst p)) (fun x1 => bind (np_min (map fst p)) (fun x0 =>
  bind (np_max (map snd p)) (fun y1 => bind (np_min (map snd p)) (fun y0 =>
  Ok (mkPanel p s (x0, x1) (y0, y1) (fixed 3 (x1 - x0)) (fixed 3 (y1 - y0)) (has_W qslice)))))))).
(** The dictionary for one point (MatModel.v) as far as its curves are finite. *)
Definition one_point (l : list (string * option (R * R * list (R * R)))) : curves :=
  flat_map (fun e => match snd e with Some (_, _, pts) => [(fst e, [pts])] | None => [] end) l.

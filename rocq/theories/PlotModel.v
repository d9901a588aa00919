(** Plots of a dataset: /repo/neutronpy/data/plot.py:19-422.  What matplotlib is told to draw is the result; figures, labels, files and
    windows are left out, and so are rebinning before the plot (BinModel.v), smoothing (sigma = 0) and the fit.  Columns are rational. *)
From Coq Require Import String List QArith Qabs Qround Bool Arith ZArith.
From Verif Require Import Base SymModel.
Import ListNotations.
Local Open Scope Q_scope.

(** The dataset as the plots see it: the columns of [data], [intensity] and [error]. *)
Record pdata := mkPdata { cols : list (string * list Q); intens : list Q; err : list Q }.
Fixpoint lookup (l : list (string * list Q)) (k : string) : res (list Q) :=
  match l with [] => Err KeyError | (k', v) :: l => if String.eqb k' k then Ok v else lookup l k end.
(** plot.py:181-184, 272-275, 365-370: an axis that holds values may be the intensity. *)
Definition values (d : pdata) (k : string) : res (list Q) := if String.eqb k "intensity" then Ok (intens d) else lookup (cols d) k.

(** np.unique: the different values in rising order. *)
Fixpoint uinsert (x : Q) (l : list Q) : list Q :=
  match l with [] => [x] | y :: l' => if Qeq_bool x y then l else if Qle_bool x y then x :: l else y :: uinsert x l' end.
Definition unique (l : list Q) : list Q := fold_right uinsert [] l.
(** int() of a float: towards zero. *)
Definition truncate (x : Q) : Z := if Qle_bool 0 x then Qfloor x else (- Qfloor (- x))%Z.
(** np.linspace(a, b, n). *)
Definition linspace (a b : Q) (n : Z) : res (list Q) :=
  if Z.ltb n 0 then Err ValueError
  else if Z.eqb n 1 then Ok [a]
  else Ok (map (fun i => a + inject_Z (Z.of_nat i) * ((b - a) / inject_Z (n - 1))) (seq 0 (Z.to_nat n))).
(** plot.py:281-288, one axis: the step between the two smallest values, to four decimals; the number of positions computed from it.
    The smallest value is the first of the unique ones and the largest the last.  Simplified: int() of an infinite number is
    OverflowError, here GenericException. *)
Definition axis (l : list Q) : res (list Q) :=
  match unique l with
  | u0 :: u1 :: _ =>
    let step := round_to 10000 (Qabs (u1 - u0)) in
    let b := last (unique l) 0 in
    if Qeq_bool step 0 then Err (if Qeq_bool u0 0 then ValueError else GenericException)
    else linspace u0 b (truncate (b - u0 / step) + 1)
  | _ => Err IndexError
  end.

(** What is drawn: points with or without error bars, the two axes of a map of interpolated values, points in space with colours. *)
Inductive picture :=
| Line (pts : list (Q * Q)) (bars : option (list Q))
| Contour (gx gy : list Q) (pts : list (Q * Q * Q))
| Volume (pts : list (Q * Q * Q * Q)).

Definition zip3 (a b c : list Q) := combine (combine a b) c.
(** plot.py:363-382.  The error bars of a column other than the intensity are the square roots of its values, here given by their
    squares. *)
Definition plot_line (d : pdata) (x y : string) (show_err : bool) : res picture :=
  bind (lookup (cols d) x) (fun xs => bind (values d y) (fun ys =>
    Ok (Line (combine xs ys) (if show_err then Some (if String.eqb y "intensity" then map (fun e => e * e) (err d) else ys) else None)))).
(** plot.py:269-295. *)
Definition plot_contour (d : pdata) (x y z : string) : res picture :=
  bind (lookup (cols d) x) (fun xs => bind (lookup (cols d) y) (fun ys => bind (values d z) (fun zs =>
    bind (match unique xs with _ :: _ :: _ => Ok tt | _ => Err IndexError end) (fun _ =>
    bind (match unique ys with _ :: _ :: _ => Ok tt | _ => Err IndexError end) (fun _ =>
    bind (axis xs) (fun gx => bind (axis ys) (fun gy => Ok (Contour gx gy (zip3 xs ys zs))))))))).
(** plot.py:177-199: points without a positive value are hidden. *)
Definition plot_volume (d : pdata) (x y z w : string) : res picture :=
  bind (lookup (cols d) x) (fun xs => bind (lookup (cols d) y) (fun ys => bind (lookup (cols d) z) (fun zs => bind (values d w) (fun ws =>
    Ok (Volume (filter (fun p => negb (Qle_bool (snd p) 0)) (combine (zip3 xs ys zs) ws))))))).
(** plot.py:85-107: the dispatch; the attributes plot_default_x and plot_default_y may be missing.  An axis that is None is no key of
    the columns. *)
Definition plot (dx dy : option string) (d : pdata) (x y z w : option string) (show_err : bool) : res picture :=
  bind (match x, dx with Some k, _ | None, Some k => Ok k | _, _ => Err AttributeError end) (fun x =>
  bind (match y, dy with Some k, _ | None, Some k => Ok k | _, _ => Err AttributeError end) (fun y =>
    match w, z with
    | Some w, Some z => plot_volume d x y z w
    | Some w, None => bind (lookup (cols d) x) (fun _ => bind (lookup (cols d) y) (fun _ => Err KeyError))
    | None, Some z => plot_contour d x y z
    | None, None => plot_line d x y show_err
    end)).

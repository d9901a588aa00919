(** The table of fitted parameters: PlotFit.build_param_table, /repo/neutronpy/lsfit/plot.py:14-48.  The text is kept as the numbers
    printed, over the reals; function_str and the headings are left out. *)
From Coq Require Import List ZArith Reals.
From Verif Require Import Base DescribeModel.
Import ListNotations.
Local Open Scope R_scope.

(** plot.py:32: floor(log10(abs x)); -inf for 0 is [None]. *)
Definition decade (x : R) : option Z := if Req_EM_T x 0 then None else Some (Int_part (ln (Rabs x) / ln 10)).
(** plot.py:32-34: the number of decimals; without an error it is inf or, with a vanishing parameter, nan: both become the smallest
    integer, [None]. *)
Definition n_dec (p s : R) : option Z :=
  match decade p, decade s with
  | _, None => None
  | None, Some _ => Some 2%Z
  | Some a, Some b => let n := (a - b + 1)%Z in Some (if Z.ltb n 1 then 2%Z else n)
  end.
(** '%1.ne' % x: the number printed, x rounded to n digits after the first one. *)
Definition sci (n : Z) (x : R) : R :=
  match decade x with None => 0 | Some e => let u := powerRZ 10 (e - n) in IZR (nearest (x / u)) * u end.
(** plot.py:42-45: a format with a negative number of decimals raises ValueError. *)
Fixpoint rows (ps es : list R) : res (list (R * R)) :=
  match ps, es with
  | p :: ps, s :: es =>
      match n_dec p s with
      | None => Err ValueError
      | Some n => bind (rows ps es) (fun l => Ok ((sci n p, sci 1 s) :: l))
      end
  | _, _ => Ok []
  end.
(** plot.py:24-32: abs of None, reported when the errors could not be estimated, raises TypeError. *)
Definition all_some (l : list (option R)) : option (list R) := fold_right (fun x r => match x, r with Some a, Some l => Some (a :: l) | _, _ => None end) (Some []) l.
(** plot.py:24-48; the last number is chi squared, with six decimals. *)
Definition table (params : list R) (xerror : list (option R)) (chi2 : R) : res (list (R * R) * Z) :=
  match all_some xerror with
  | None => Err TypeError
  | Some es => bind (rows params es) (fun l => Ok (l, fixed 6 chi2))
  end.

(** The fit drawn over a plot of a dataset: the last part of PlotData.plot_line, /repo/neutronpy/data/plot.py:356-422, as Data.plot calls it.
    Rebinning before the plot (BinModel.v) and labels, files and windows are left out.  The function fitted is total and takes and
    gives arrays; fitting itself is FitModel.v. *)
From Coq Require Import String Ascii List ZArith Reals.
From Verif Require Import Base FitModel DescribeModel.
From Verif Require ToolsModel.
Import ListNotations.
Local Open Scope R_scope.
Local Open Scope list_scope.

Definition function := list R -> list R -> list R.
(** The columns, the intensity and its error. *)
Record dataset := mkDataset { columns : list (string * list R); intensity : list R; error : list R }.
(** gaussian_filter with a given sigma; how the optimiser proceeds for given residuals ([None]: not a finite number). *)
Record surroundings := mkSur { smooth : R -> list R -> list R; minimiser : (list R -> list (option R)) -> optimiser }.
(** The keys of fit_options the code looks at: function, p and fixp; nothing at all is the empty dictionary. *)
Record fit_options := mkOptions { o_function : option function; o_p : option seqarg; o_fixp : option (list bool) }.
Definition no_options (o : fit_options) : bool := match o_function o, o_p o, o_fixp o with None, None, None => true | _, _, _ => false end.
(** What matplotlib is told, in order; the annotation is the numbers printed with three decimals: chi squared and the parameters. *)
Inductive artist := Points (pts : list (R * R)) (bars : option (list R)) | Curve (colour : ascii) (xs ys : list R) | Annotation (chi2 : Z) (params : list Z).

Definition column (d : dataset) (k : string) : res (list R) := match ToolsModel.lookup k (columns d) with Some l => Ok l | None => Err KeyError end.
(** plot.py:364-370; np.sqrt of a negative number is not a number, here the square root 0 of Coq. *)
Definition shown (d : dataset) (y : string) : res (list R * list R) :=
  if String.eqb y "intensity" then Ok (intensity d, error d) else bind (column d y) (fun l => Ok (l, map sqrt l)).
(** plot.py:390-393 *)
Definition quotient (a e : R) : option R := if Req_EM_T e 0 then None else Some (a / e).
Definition residuals (f : function) (xs ys es : list R) (p : list R) : list (option R) :=
  map (fun q => quotient (fst (fst q) - snd (fst q)) (snd q)) (combine (combine ys (f p xs)) es).
(** min, max: ValueError for no values. *)
Definition extreme (better : R -> R -> R) (l : list R) : res R := match l with [] => Err ValueError | x :: l => Ok (fold_left better l x) end.
(** np.linspace(a, b, n) for n > 1 *)
Definition linspace (a b : R) (n : nat) : list R := map (fun i => a + INR i * ((b - a) / INR (n - 1))) (seq 0 n).
(** plot.py:402-418 inside the try: the artists added before an exception, which 420-421 turns into Exception. *)
Definition try_fit (w : surroundings) (o : fit_options) (f : function) (xs ys es : list R) (options : list (string * string)) : list artist * res unit :=
  let failed := ([], Err GenericException) in
  match o_p o with
  | None => failed
  | Some a =>
      let m := minimiser w (residuals f xs ys es) in
      let inf := option_map (map (fun b => Some (mkInfo None (Some b)))) (o_fixp o) in
      match fit m (mkFitter (Some tt) None inf None) a with
      | (g, _, Ok _) =>
          match f_result g, add_all [] 0 (combine (entries a) (match inf with Some i => i | None => repeat None (List.length (entries a)) end)) with
          | Some r, Ok p =>
              match extreme Rmin xs, extreme Rmax xs with
              | Ok lo, Ok hi =>
                  let t := linspace lo hi (List.length xs * 10) in
                  match ToolsModel.lookup "fmt" options with
                  | Some (String c _) => ([Curve c t (f (o_params r) t); Annotation (fixed 3 (u_chisqr (m p))) (map (fixed 3) (o_params r))], Ok tt)
                  | _ => failed
                  end
              | _, _ => failed
              end
          | _, _ => failed
          end
      | (_, _, Err _) => failed
      end
  end.
(** plot.py:356-421: the picture, the caller's plot_options afterwards and the result. *)
Definition plot_line (w : surroundings) (d : dataset) (x y : string) (show_err : bool) (options : list (string * string)) (o : fit_options) (sigma : R) : list artist * list (string * string) * res unit :=
  match column d x with
  | Err e => ([], options, Err e)
  | Ok xs => match shown d y with
    | Err e => ([], options, Err e)
    | Ok (ys, es) =>
        let ys := if Rlt_dec 0 sigma then smooth w sigma ys else ys in
        let options := match options with [] => [("fmt", "rs")%string] | _ => options end in
        let drawn := [Points (combine xs ys) (if show_err then Some es else None)] in
        if no_options o then (drawn, options, Ok tt)
        else match o_function o with
             | None => (drawn, options, Err KeyError)
             | Some f => let (more, r) := try_fit w o f xs ys es options in (drawn ++ more, options, r)
             end
    end
  end.

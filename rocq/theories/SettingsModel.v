(** The settings of a fitter and what it reports: Fitter, /repo/neutronpy/lsfit/fitter.py:137-482, and the use of the settings in fit, 486-545.
    What fit does with its starting values is in FitModel.v; here a fit is its effect on the object and its call of the optimiser. *)
From Coq Require Import String List ZArith Reals.
From Verif Require Import Base.
Import ListNotations.
Local Open Scope list_scope.

(** Python values as far as the setters tell them apart; [PNum] are numbers other than bool and int (numbers.Number: float, complex, numpy scalars),
    [PArr] numpy arrays, [POther] anything else. *)
Inductive py := PNone | PBool (b : bool) | PInt (z : Z) | PNum (x : R) | PStr (s : string) | PList (l : list py) | PTuple (l : list py) | PArr (l : list R) | PDict (d : list (string * R)) | POther.
Inductive setting := Parinfo | Params0 | Data | Deriv | Ftol | Xtol | Gtol | Epsfcn | Stepfactor | Covtol | Maxiter | Maxfev | Nofinitecheck | Nan_policy.
Definition setting_eqb (s t : setting) : bool :=
  match s, t with
  | Parinfo, Parinfo | Params0, Params0 | Data, Data | Deriv, Deriv | Ftol, Ftol | Xtol, Xtol | Gtol, Gtol | Epsfcn, Epsfcn | Stepfactor, Stepfactor
  | Covtol, Covtol | Maxiter, Maxiter | Maxfev, Maxfev | Nofinitecheck, Nofinitecheck | Nan_policy, Nan_policy => true
  | _, _ => false
  end.
(** isinstance(value, numbers.Number), isinstance(value, int): bool is a subclass of int. *)
Definition is_number (v : py) : bool := match v with PBool _ | PInt _ | PNum _ => true | _ => false end.
Definition is_int (v : py) : bool := match v with PBool _ | PInt _ => true | _ => false end.
(** np.finfo(np.float64).eps *)
Definition eps : R := (/ 2 ^ 52)%R.

(** What a setter does with a value: keep it, perhaps replaced, raise ValueError, or nothing. *)
Inductive verdict := Keep (v : py) | Refuse | Ignore.
Definition number (v : py) : verdict := if is_number v then Keep v else Refuse.
(** fitter.py:195-205, 221-228, 237-242, 248-250, 258-388; np.all of an empty list is True. *)
Definition judge (s : setting) (v : py) : verdict :=
  match s with
  | Parinfo =>
      match v with
      | PList l | PTuple l => if forallb (fun i => match i with PNone | PDict _ => true | _ => false end) l then Keep v else Refuse
      | PNone => Keep PNone
      | _ => Refuse
      end
  | Params0 => match v with PList _ | PTuple _ | PArr _ => Keep v | PNone => Keep PNone | _ => Refuse end
  | Data => match v with PTuple _ => Keep v | _ => Ignore end
  | Deriv => Keep v
  | Ftol | Xtol | Gtol | Stepfactor | Covtol => number v
  | Epsfcn => match v with PNone => Keep (PNum eps) | _ => number v end
  | Maxiter => if is_int v then Keep v else Refuse
  | Maxfev => if is_int v then Keep v else match v with PNone => Keep (PInt 0) | _ => Refuse end
  | Nofinitecheck => match v with PBool _ => Keep v | _ => Refuse end
  | Nan_policy => match v with PStr _ => Keep v | _ => Refuse end
  end.
(** What lmfit returns, as far as it is kept: fitter.py:524-533.  [a_*] are left as values of any kind. *)
Record answer := mkAnswer { a_chisqr : py; a_redchi : py; a_ndata : Z; a_nfree : Z; a_residual : py; a_ier : py; a_covar : py; a_stderr : list py; a_values : list py; a_message : py }.
(** The object: its attributes, those of the classes config and result made for it (140-142), and the number of data; [None] is an attribute that is not there. *)
Record fitter := mkFitter { attr : string -> option py; config : string -> option py; result : string -> option py; m_ : Z }.
Definition upd (k : string) (v : py) (d : string -> option py) : string -> option py := fun k' => if String.eqb k' k then Some v else d k'.
(** The attribute a setter writes, of config (true) or of the object: fitter.py:195-388, and the one the getter reads. *)
Definition written (s : setting) : bool * string :=
  match s with
  | Parinfo => (false, "_parinfo") | Params0 => (false, "_params0") | Data => (false, "_data") | Deriv => (false, "_deriv")
  | Ftol => (true, "ftol") | Xtol => (true, "xtol") | Gtol => (true, "gtol") | Epsfcn => (true, "epsfcn") | Stepfactor => (true, "stepfactor")
  | Covtol => (true, "covtol") | Maxiter => (true, "maxiter") | Maxfev => (true, "maxfev") | Nofinitecheck => (true, "nofinitecheck") | Nan_policy => (false, "_nan_policy")
  end%string.
Definition consulted (s : setting) : bool * string :=
  match s with
  | Parinfo => (false, "_parinfo") | Params0 => (false, "_params0") | Data => (false, "_data") | Deriv => (false, "_deriv")
  | Ftol => (true, "ftol") | Xtol => (true, "xtol") | Gtol => (true, "gtol") | Epsfcn => (true, "epsfcn") | Stepfactor => (true, "stepfactor")
  | Covtol => (true, "covtol") | Maxiter => (true, "maxiter") | Maxfev => (true, "maxfev") | Nofinitecheck => (false, "_nofinitecheck") | Nan_policy => (false, "_nan_policy")
  end%string.
Definition at_ (k : bool * string) (f : fitter) : option py := if fst k then config f (snd k) else attr f (snd k).
Definition store (s : setting) (v : py) (f : fitter) : fitter :=
  let k := written s in
  if fst k then mkFitter (attr f) (upd (snd k) v (config f)) (result f) (m_ f) else mkFitter (upd (snd k) v (attr f)) (config f) (result f) (m_ f).
Definition set (s : setting) (v : py) (f : fitter) : fitter * res unit :=
  match judge s v with Keep w => (store s w f, Ok tt) | Refuse => (f, Err ValueError) | Ignore => (f, Ok tt) end.
Definition found (v : option py) : res py := match v with Some v => Ok v | None => Err AttributeError end.
(** The getters *)
Definition get (s : setting) (f : fitter) : res py := found (at_ (consulted s) f).
(** fitter.py:137-163; deriv is wrapped unless None. *)
Record arguments := mkArguments { g_deriv : py; g_data : py; g_params0 : py; g_parinfo : py; g_ftol : py; g_xtol : py; g_gtol : py; g_epsfcn : py; g_stepfactor : py; g_covtol : py; g_maxiter : py; g_maxfev : py; g_nofinitecheck : py; g_nan_policy : py }.
Definition given (a : arguments) : list (setting * py) :=
  [(Deriv, g_deriv a); (Data, g_data a); (Params0, g_params0 a); (Parinfo, g_parinfo a); (Ftol, g_ftol a); (Xtol, g_xtol a); (Gtol, g_gtol a); (Epsfcn, g_epsfcn a);
   (Stepfactor, g_stepfactor a); (Covtol, g_covtol a); (Maxiter, g_maxiter a); (Maxfev, g_maxfev a); (Nofinitecheck, g_nofinitecheck a); (Nan_policy, g_nan_policy a)].
Fixpoint set_all (l : list (setting * py)) (f : fitter) : res fitter :=
  match l with [] => Ok f | (s, v) :: l => match set s v f with (f, Ok _) => set_all l f | (_, Err e) => Err e end end.
Definition new (a : arguments) : res fitter := set_all (given a) (mkFitter (fun _ => None) (fun _ => None) (fun _ => None) 0).

(** len; only sequences are kept in params0 and parinfo. *)
Definition len (v : py) : res nat := match v with PList l | PTuple l => Ok (List.length l) | PArr l => Ok (List.length l) | PDict d => Ok (List.length d) | PStr s => Ok (String.length s) | _ => Err TypeError end.
(** What the world does in a fit: whether the parameters can be set up and one of them varies (505-516, FitModel.v), the squared norm of
    the first call of the residuals, and the optimiser, which is handed the options of 518 and 522-524. *)
Record options := mkOptions { x_nan_policy : py; x_data : py; x_deriv : py; x_ftol : py; x_xtol : py; x_gtol : py; x_maxfev : py; x_epsfcn : py; x_factor : py }.
Record surroundings := mkSur { prepare : py -> py -> res bool; first_norm : py -> py -> res py; optimise : py -> py -> options -> res answer }.
Definition options_of (f : fitter) : res options :=
  bind (get Nan_policy f) (fun n => bind (get Data f) (fun d => bind (get Deriv f) (fun dv => bind (get Ftol f) (fun ft => bind (get Xtol f) (fun xt =>
  bind (get Gtol f) (fun gt => bind (get Maxfev f) (fun mf => bind (get Epsfcn f) (fun ep => bind (get Stepfactor f) (fun sf =>
  Ok (mkOptions n d dv ft xt gt mf ep sf)))))))))).
(** fitter.py:526-537 *)
Definition keep (a : answer) (f : fitter) : fitter :=
  mkFitter (attr f) (config f)
    (upd "message" (a_message a) (upd "params" (PList (a_values a)) (upd "xerror" (PList (a_stderr a)) (upd "covar" (a_covar a) (upd "status" (a_ier a)
    (upd "resid" (a_residual a) (upd "nfree" (PInt (a_nfree a)) (upd "redchi" (a_redchi a) (upd "bestnorm" (a_chisqr a) (result f)))))))))) (a_ndata a).
(** fitter.py:516-545, from the parameters on. *)
Definition minimise (w : surroundings) (p0 info : py) (f : fitter) : fitter * res unit :=
  match prepare w p0 info with
  | Err e => (f, Err e)
  | Ok false => (f, Err GenericException)
  | Ok true =>
      match get Data f with
      | Err e => (f, Err e)
      | Ok d =>
          match first_norm w p0 d with
          | Err e => (f, Err e)
          | Ok n =>
              let f := mkFitter (attr f) (config f) (upd "orignorm" n (result f)) (m_ f) in
              match bind (options_of f) (optimise w p0 info) with
              | Err e => (f, Err e)
              | Ok a => (keep a f, Ok tt)
              end
          end
      end
  end.
(** fitter.py:495-503 *)
Definition fit (w : surroundings) (p0 : py) (f : fitter) : fitter * res unit :=
  match set Params0 p0 f with
  | (f, Err e) => (f, Err e)
  | (f, Ok _) =>
      match bind (get Params0 f) len, get Parinfo f with
      | Err e, _ | _, Err e => (f, Err e)
      | Ok n, Ok PNone => let info := PList (repeat PNone n) in minimise w p0 info (store Parinfo info f)
      | Ok n, Ok info => match len info with Ok m => if Nat.eqb n m then minimise w p0 info f else (f, Err AssertionError) | Err e => (f, Err e) end
      end
  end.
Inductive act := Set_ (s : setting) (v : py) | Fit (w : surroundings) (p0 : py).
Definition do (f : fitter) (a : act) : fitter := match a with Set_ s v => fst (set s v f) | Fit w p0 => fst (fit w p0 f) end.

(** The reports: fitter.py:207-212, 399-475, the attribute of result each reads. *)
Inductive report := Params | Xerror | Covar | Chi2_min | Orignorm | Rchi2_min | Nfree | Dof | Resid | Status | Message | Niter | Nfev | Npegged.
Definition field (r : report) : string :=
  match r with
  | Params => "params" | Xerror => "xerror" | Covar => "covar" | Chi2_min => "bestnorm" | Orignorm => "orignorm" | Rchi2_min => "redchi" | Nfree | Dof => "nfree"
  | Resid => "resid" | Status => "status" | Message => "message" | Niter => "niter" | Nfev => "nfev" | Npegged => "npegged"
  end%string.
(** 465-468: dof is the number of data less nfree, which is a whole number. *)
Definition read (r : report) (f : fitter) : res py :=
  match r with
  | Dof => bind (found (result f (field Dof))) (fun v => match v with PInt n => Ok (PInt (m_ f - n)) | _ => Err TypeError end)
  | _ => found (result f (field r))
  end.
(** fitter.py:390-397: only TypeError is caught. *)
Definition npar (f : fitter) : res (option nat) :=
  match get Params0 f with
  | Err e => Err e
  | Ok v => match len v with Ok n => Ok (Some n) | Err TypeError => Ok None | Err e => Err e end
  end.

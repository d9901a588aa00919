(** Fitting: neutronpy/lsfit/fitter.py and lsfit/tools.py.
    lmfit is modelled by what the code relies on: Parameters is a dictionary in order of insertion; during a fit only the
    values of parameters with vary=True change, to whatever the optimiser chooses; nfree = ndata - nvarys,
    redchi = chisqr / max(1, nfree), covar is the covariance of the varied parameters already multiplied by redchi
    (scale_covar=True).  Clipping of starting values to limits, which lmfit does, is not modelled; constraint
    expressions do not occur. *)
From Coq Require Import String List ZArith Reals Decimal DecimalString DecimalNat.
From Verif Require Import Base.
Import ListNotations.
Local Open Scope R_scope.

(** 'p{0}'.format(i) *)
Definition name (i : nat) : string := ("p" ++ NilEmpty.string_of_uint (Nat.to_uint i))%string.

(** lmfit.Parameter: value, vary, min, max ([None]: unbounded). *)
Record param := mkParam { p_value : R; p_vary : bool; p_min : option R; p_max : option R }.
Definition params : Type := list (string * param).
(** Parameters.add and item assignment of a dictionary. *)
Fixpoint put (k : string) (p : param) (l : params) : params :=
  match l with
  | [] => [(k, p)]
  | (k', p') :: r => if String.eqb k k' then (k, p) :: r else (k', p') :: put k p r
  end.
Fixpoint get (k : string) (l : params) : res param :=
  match l with
  | [] => Err KeyError
  | (k', p') :: r => if String.eqb k k' then Ok p' else get k r
  end.

(** One entry of parinfo: the value of 'limits' if the key is there (None or a list), and of 'fixed'. *)
Record info := mkInfo { i_limits : option (option (list (option R))); i_fixed : option bool }.
(** Item [i] of the value of 'limits'. *)
Definition limit (i : nat) (l : option (list (option R))) : res (option R) :=
  match l with
  | None => Err TypeError
  | Some l => match nth_error l i with Some x => Ok x | None => Err IndexError end
  end.
(** Parameter.set: None leaves the attribute. *)
Definition or_old (x y : option R) : option R := match x with Some _ => x | None => y end.

(** fitter.py:505-514, one pass of the loop. *)
Definition add_param (l : params) (i : nat) (p0 : R) (parin : option info) : res params :=
  let l1 := put (name i) (mkParam p0 true None None) l in
  match parin with
  | None => Ok l1
  | Some inf =>
      bind (match i_limits inf with
            | None => Ok l1
            | Some lim =>
                bind (limit 0 lim) (fun lo => bind (get (name i) l1) (fun p =>
                let l2 := put (name i) (mkParam (p_value p) (p_vary p) (or_old lo (p_min p)) (p_max p)) l1 in
                bind (limit 1 lim) (fun hi => bind (get (name i) l2) (fun p =>
                Ok (put (name i) (mkParam (p_value p) (p_vary p) (p_min p) (or_old hi (p_max p))) l2)))))
            end) (fun l3 =>
      match i_fixed inf with
      | None => Ok l3
      | Some b => bind (get (name i) l3) (fun p => Ok (put (name i) (mkParam (p_value p) (negb b) (p_min p) (p_max p)) l3))
      end)
  end.
(** fitter.py:505: enumerate(zip(params0, parinfo)). *)
Fixpoint add_all (l : params) (i : nat) (z : list (R * option info)) : res params :=
  match z with
  | [] => Ok l
  | (p0, parin) :: r => bind (add_param l i p0 parin) (fun l => add_all l (S i) r)
  end.

(** Values chosen by the optimiser for the varied parameters, counted in order. *)
Fixpoint assign (t : nat -> R) (l : params) : params :=
  match l with
  | [] => []
  | (k, p) :: r => if p_vary p then (k, mkParam (t 0%nat) true (p_min p) (p_max p)) :: assign (fun j => t (S j)) r else (k, p) :: assign t r
  end.
(** tools.py:22-24 and fitter.py:531: the values of 'p0', 'p1', ... in this order. *)
Definition values (l : params) : res (list R) := map_res (fun i => bind (get (name i) l) (fun p => Ok (p_value p))) (seq 0 (List.length l)).

(** What an optimiser does, given the starting parameters: the trials it evaluates, where it ends, chi squared and
    unscaled variance of each varied parameter there, the number of residuals, and whether it claims success. *)
Record run := mkRun { u_trials : list (nat -> R); u_final : nat -> R; u_chisqr : R; u_var : nat -> R; u_ndata : nat; u_success : bool }.
Definition optimiser : Type := params -> run.

(** params0 as given: list, tuple or array, None, something else. *)
Inductive seqarg := AList (l : list R) | ATuple (l : list R) | AArray (l : list R) | ANone | AOther.
Definition entries (a : seqarg) : list R := match a with AList l | ATuple l | AArray l => l | _ => [] end.
(** What reading the result of a fit gives. *)
Record outcome := mkOutcome { o_params : list R; o_nfree : Z; o_ndata : Z; o_redchi : R; o_covar_diag : list R }.
(** The object: data is only set by a tuple; parinfo; params0; the result of the last completed fit. *)
Record fitter (D : Type) := mkFitter { f_data : option D; f_params0 : option seqarg; f_parinfo : option (list (option info)); f_result : option outcome }.
Arguments mkFitter {D}. Arguments f_data {D}. Arguments f_params0 {D}. Arguments f_parinfo {D}. Arguments f_result {D}.

(** fitter.py:226-231: anything but a tuple is silently ignored. *)
Inductive dataarg (D : Type) := DTuple (d : D) | DOther.
Arguments DTuple {D}. Arguments DOther {D}.
Definition set_data {D} (f : fitter D) (d : dataarg D) : fitter D :=
  match d with DTuple d => mkFitter (Some d) (f_params0 f) (f_parinfo f) (f_result f) | DOther => f end.
(** fitter.py:209-216 *)
Definition set_params0 {D} (f : fitter D) (a : seqarg) : res (fitter D) :=
  match a with
  | AOther => Err ValueError
  | ANone => Ok (mkFitter (f_data f) None (f_parinfo f) (f_result f))
  | a => Ok (mkFitter (f_data f) (Some a) (f_parinfo f) (f_result f))
  end.

(** The part of fit after params0 and parinfo are stored: fitter.py:505-542.  The first component lists the parameter
    vectors the user's residual function is called with. *)
Definition fit_core {D} (o : optimiser) (f : fitter D) (a : seqarg) (inf : list (option info)) : list (list R) * res (outcome * bool) :=
  match add_all [] 0 (combine (entries a) inf) with
  | Err e => ([], Err e)
  | Ok p =>
      if forallb (fun q => negb (p_vary (snd q))) p then ([], Err GenericException)
      else match f_data f with
      | None => ([], Err AttributeError)
      | Some _ =>
          match a with
          | ATuple _ | ANone | AOther => ([], Err AttributeError) (* a tuple has no valuesdict: tools.py:22 *)
          | AList l | AArray l =>
              let u := o p in
              match map_res (fun t => values (assign t p)) (u_trials u), values (assign (u_final u) p) with
              | Ok tr, Ok v =>
                  let nv := List.length (filter (fun q => p_vary (snd q)) p) in
                  let nfree := (Z.of_nat (u_ndata u) - Z.of_nat nv)%Z in
                  let redchi := u_chisqr u / IZR (Z.max 1 nfree) in
                  (l :: tr, Ok (mkOutcome v nfree (Z.of_nat (u_ndata u)) redchi (map (fun j => redchi * u_var u j) (seq 0 nv)), u_success u))
              | Err e, _ | _, Err e => ([l], Err e)
              end
          end
      end
  end.
(** fitter.py:486-542 fit: the object afterwards, the calls of the residual function, and the result (success). *)
Definition fit {D} (o : optimiser) (f : fitter D) (a : seqarg) : fitter D * list (list R) * res bool :=
  match set_params0 f a with
  | Err e => (f, [], Err e)
  | Ok f1 =>
      match f_params0 f1 with
      | None => match f_parinfo f1 with None => (f1, [], Err TypeError) | Some _ => (f1, [], Err TypeError) end (* len(None) *)
      | Some a =>
          let go inf := 
            let f2 := mkFitter (f_data f1) (f_params0 f1) (Some inf) (f_result f1) in
            match fit_core o f2 a inf with
            | (tr, Ok (r, s)) => (mkFitter (f_data f1) (f_params0 f1) (Some inf) (Some r), tr, Ok s)
            | (tr, Err e) => (f2, tr, Err e)
            end in
          match f_parinfo f1 with
          | None => go (repeat None (List.length (entries a)))
          | Some inf => if Nat.eqb (List.length (entries a)) (List.length inf) then go inf else (f1, [], Err AssertionError)
          end
      end
  end.
(** fitter.py:165-175 __call__ *)
Definition call {D} (o : optimiser) (f : fitter D) (a : seqarg) : fitter D * list (list R) * res (list R) :=
  match f_result f with
  | Some r => (f, [], Ok (o_params r))
  | None =>
      let go x := match fit o f x with
                  | (f', tr, Ok _) => (f', tr, match f_result f' with Some r => Ok (o_params r) | None => Err AttributeError end)
                  | (f', tr, Err e) => (f', tr, Err e)
                  end in
      match f_params0 f, a with
      | Some p, ANone => go p
      | _, ANone => (f, [], Err ValueError)
      | _, a => go a
      end
  end.
(** Reported numbers: fitter.py:435-439, 465-482. *)
Definition nfree {D} (f : fitter D) : res Z := match f_result f with Some r => Ok (o_nfree r) | None => Err AttributeError end.
Definition dof {D} (f : fitter D) : res Z := bind (nfree f) (fun n => match f_result f with Some r => Ok (o_ndata r - n)%Z | None => Err AttributeError end).
Definition stderr {D} (f : fitter D) : res (list R) :=
  match f_result f with Some r => Ok (map (fun c => sqrt (c * o_redchi r)) (o_covar_diag r)) | None => Err AttributeError end.

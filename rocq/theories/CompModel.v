(** Instrument components: what their constructors store and what they compute from it.
    /repo/neutronpy/instrument/monochromator.py, analyzer.py, chopper.py, guide.py, goniometer.py,
    /repo/neutronpy/crystal/sample.py and the end of crystal/material.py Material.__init__. *)
From Coq Require Import String List ZArith Reals.
From Verif Require Import Base LinAlg EnergyModel LatticeModel ToolsModel.
Import ListNotations.
Local Open Scope R_scope.

(** ** Attributes *)
(** A Python value as the components store it: None, a number, a string or a sequence of numbers. *)
Inductive value := NoneV | Num (x : R) | Str (s : string) | Vec (l : list R).
(** The instance dictionary __dict__, in order of first assignment. *)
Definition obj := list (string * value).
Fixpoint put (k : string) (v : value) (o : obj) : obj :=
  match o with
  | [] => [(k, v)]
  | (k', v') :: r => if String.eqb k' k then (k, v) :: r else (k', v') :: put k v r
  end.
Definition get (k : string) (o : obj) : res value := match lookup k o with Some v => Ok v | None => Err AttributeError end.
(** if x is not None: self.k = x; Python's omitted argument is None. *)
Definition put_opt (k : string) (x : value) (o : obj) : obj := match x with NoneV => o | _ => put k x o end.

Definition tau_of (v : value) : tau_arg := match v with Num x => TNum x | Str s => TName s | _ => TOther end.

(** ** Monochromator *)
(** monochromator.py:53-69. *)
Definition mono_init (who : caller) (tau mosaic direct vmosaic height width depth rh rv : value) : res obj :=
  let o := put "mosaic" mosaic (put "_tau" tau []) in
  let o := put "dir" direct (put_opt "vmosaic" vmosaic o) in
  bind (spacing who (tau_of tau)) (fun d =>
  let o := put_opt "rv" rv (put_opt "rh" rh (put "d" (Num d) o)) in
  Ok (put_opt "depth" depth (put_opt "width" width (put_opt "height" height o)))).

(** monochromator.py:95-110 and the default attribute lookup. *)
Definition mono_get (k : string) (o : obj) : res value :=
  if String.eqb k "tau" then get "_tau" o else if String.eqb k "direct" then get "dir" o else get k o.
(** The assignment obj.k = v; the setter of tau stores the value before the new spacing is computed. *)
Definition mono_set (who : caller) (k : string) (v : value) (o : obj) : obj * res unit :=
  if String.eqb k "tau" then
    let o := put "_tau" v o in
    match spacing who (tau_of v) with Ok d => (put "d" (Num d) o, Ok Datatypes.tt) | Err e => (o, Err e) end
  else if String.eqb k "direct" then (put "dir" v o, Ok Datatypes.tt)
  else (put k v o, Ok Datatypes.tt).

(** ** Analyzer *)
(** analyzer.py:65-73: direct, vmosaic, height, width, depth, rh and rv are not passed on. *)
Definition ana_init (who : caller) (tau mosaic direct vmosaic height width depth rh rv horifoc thickness Q : value) : res obj :=
  bind (mono_init who tau mosaic (Num (-1)) NoneV NoneV NoneV NoneV NoneV NoneV) (fun o =>
  Ok (put "horifoc" horifoc (put_opt "Q" Q (put_opt "thickness" thickness o)))).

(** ** Sample *)
(** crystal/sample.py:118-141 with lattice.py:77-79; np.array of a number is that number (an array without
    dimensions), of a list the list. *)
Definition sample_init (a b c alpha beta gamma : R) (u v mosaic vmosaic direct width height depth shape distance : value) : obj :=
  let o := put "abg" (Vec [alpha; beta; gamma]) (put "abc" (Vec [a; b; c]) []) in
  let o := put_opt "vmosaic" vmosaic (put_opt "mosaic" mosaic (put_opt "_v" v (put_opt "_u" u o))) in
  let o := put "shape_type" shape (put "dir" direct o) in
  put_opt "distance" distance (put_opt "depth" depth (put_opt "height" height (put_opt "width" width o))).
(** crystal/sample.py:168-194, lattice.py:84-129. *)
Definition item (k : string) (i : nat) (o : obj) : res value :=
  match get k o with
  | Ok (Vec l) => match nth_error l i with Some x => Ok (Num x) | None => Err IndexError end
  | Ok _ => Err TypeError
  | Err e => Err e
  end.
Definition sample_get (k : string) (o : obj) : res value :=
  if String.eqb k "u" then get "_u" o else if String.eqb k "v" then get "_v" o
  else if String.eqb k "direct" then get "dir" o
  else if String.eqb k "a" then item "abc" 0 o else if String.eqb k "b" then item "abc" 1 o
  else if String.eqb k "c" then item "abc" 2 o else if String.eqb k "alpha" then item "abg" 0 o
  else if String.eqb k "beta" then item "abg" 1 o else if String.eqb k "gamma" then item "abg" 2 o
  else get k o.

(** ** Material *)
(** crystal/material.py:254-266.  The optional keys of the dictionary, [None] for absent: an absent key is
    filled with None, an absent 'dir' with 1.  The five values are handed on by position. *)
Record optional_keys := mkKeys { k_mosaic : option value; k_vmosaic : option value; k_dir : option value;
                                 k_u : option value; k_v : option value }.
Definition dflt (d : value) (o : option value) : value := match o with Some v => v | None => d end.
Definition material_sample (a b c alpha beta gamma : R) (m : optional_keys) : obj :=
  sample_init a b c alpha beta gamma (dflt NoneV (k_mosaic m)) (dflt NoneV (k_vmosaic m)) (dflt (Num 1) (k_dir m))
    (dflt NoneV (k_u m)) (dflt NoneV (k_v m)) NoneV NoneV NoneV (Str "rectangular") NoneV.

(** ** Equality of components *)
(** np.all(x == y) of two attribute values, where arrays have the same number of entries or one of the two is a single
    number, which is compared with every entry. *)
Definition num_eq (x y : R) : bool := if Req_EM_T x y then true else false.
Fixpoint nums_eq (l m : list R) : bool :=
  match l, m with
  | [], [] => true
  | x :: l, y :: m => num_eq x y && nums_eq l m
  | _, _ => false
  end.
Definition val_eq (v w : value) : bool :=
  match v, w with
  | NoneV, NoneV => true
  | Num x, Num y => num_eq x y
  | Str s, Str t => String.eqb s t
  | Vec l, Vec m => nums_eq l m
  | Num x, Vec l | Vec l, Num x => forallb (num_eq x) l
  | _, _ => false
  end.
(** sorted(list(d.keys())) of two dictionaries are equal lists exactly when each has the keys of the other. *)
Definition keys (o : obj) : list string := map fst o.
Definition same_keys (o p : obj) : bool :=
  Nat.eqb (List.length o) (List.length p) && forallb (fun k => mem k (keys p)) (keys o) && forallb (fun k => mem k (keys o)) (keys p).
(** monochromator.py:78-90 and crystal/sample.py:150-163, where every key is an attribute of the other object. *)
Definition obj_eq (o p : obj) : bool :=
  same_keys o p && forallb (fun e => match lookup (fst e) p with Some w => val_eq (snd e) w | None => false end) o.

(** ** Chopper *)
(** chopper.py:63-78: chopper_type and acceptance are whatever was passed; radius, depth and tau are stored when given. *)
Record chopper := mkChop { ch_distance : R; ch_speed : R; ch_width : R; ch_type : value; ch_accept : value;
                           ch_counter : bool; ch_radius : option R; ch_depth : option R; ch_tau : option R }.
Definition counter (c : chopper) : R := if ch_counter c then 2 else 1.
(** Division of Python floats. *)
Definition fdiv (x y : R) : res R := if Req_EM_T y 0 then Err ZeroDivisionError else Ok (x / y).
(** A number used in arithmetic; a string, list or None is a TypeError. *)
Definition as_num (v : value) : res R := match v with Num x => Ok x | _ => Err TypeError end.
Definition is_type (v : value) (s : string) : bool := match v with Str t => String.eqb t s | _ => false end.
(** chopper.py:88-112.  np.sqrt and np.arctan return numpy numbers, whose division by zero is infinite. *)
Definition tau (c : chopper) : res fl :=
  match ch_tau c with
  | Some t => Ok (Fin t)
  | None =>
    if is_type (ch_type c) "disk" then
      match ch_radius c with
      | Some r => bind (as_num (ch_accept c)) (fun a =>
                  bind (fdiv a (r * ch_speed c * counter c)) (fun t => Ok (Fin (t / sqrt (8 * ln 2)))))
      | None => bind (as_num (ch_accept c)) (fun a =>
                bind (fdiv (10 ^ 6) (ch_speed c * a * counter c)) (fun t => Ok (Fin (t / 360))))
      end
    else if is_type (ch_type c) "fermi" then
      match ch_depth c with
      | None => Err ChopperError
      | Some d => bind (as_num (ch_accept c)) (fun a =>
                  bind (fdiv a d) (fun x =>
                  let y := ch_speed c * 2 * atan x in
                  Ok (if Req_EM_T y 0 then Inf else Fin (10 ^ 6 / y / 360))))
      end
    else Err ChopperError
  end.
(** chopper.py:81-86 repr: '{0}={1}'.format with a single argument raises IndexError for the first of depth and tau that
    is there; getattr with a default hides only AttributeErrors. *)
Definition chopper_repr (c : chopper) : res string :=
  match ch_depth c with
  | Some _ => Err IndexError
  | None => match tau c with Ok _ => Err IndexError | Err AttributeError => Ok EmptyString | Err e => Err e end
  end.

(** ** Guide *)
(** guide.py:15-31; numpy's arcsin of a number above 1 and sqrt of a negative number are nan. *)
Record guide := mkGuide { gu_m : R; gu_length : R; gu_width : R; gu_height : R }.
Definition sigma_l (g : guide) : R := sqrt (gu_length g ^ 2 + gu_width g ^ 2 + gu_height g ^ 2) - gu_length g.
Definition sigma_theta (g : guide) : fl :=
  match fsqrt (gu_m g * sin (203 / 100000) ^ 2) with
  | Fin s => if Rle_dec s 1 then Fin (asin s) else NaN
  | x => x
  end.
Definition sigma_phi (g : guide) : fl := sigma_theta g.

(** ** Goniometer *)
(** goniometer.py:33-43. *)
Record gonio := mkGon { go_u : v3; go_theta_u : R; go_v : v3; go_theta_v : R; go_sgu : R; go_sgl : R; go_omega : R }.
(** goniometer.py:53-59: sgu_rad, sgl_rad. *)
Definition sgu_rad (g : gonio) : R := rad (go_sgu g).
Definition sgl_rad (g : gonio) : R := rad (go_sgl g).
(** goniometer.py:49-51: the property returns itself; 61-63 uses attributes the class does not have. *)
Definition omega_rad (g : gonio) : res R := Err RecursionError.
Definition theta_rad (g : gonio) : res R := Err AttributeError.
(** goniometer.py:69-79. *)
Definition gN (g : gonio) : m3 := M 1 0 0 0 (cos (sgu_rad g)) (- sin (sgu_rad g)) 0 (sin (sgu_rad g)) (cos (sgu_rad g)).
Definition gM (g : gonio) : m3 := M (cos (sgl_rad g)) 0 (sin (sgl_rad g)) 0 1 0 (- sin (sgl_rad g)) 0 (cos (sgl_rad g)).
(** goniometer.py:81-91. *)
Definition gOmega (g : gonio) : res m3 := bind (omega_rad g) (fun w => Ok (M (cos w) (- sin w) 0 (sin w) (cos w) 0 0 0 1)).
Definition gTheta (g : gonio) : res m3 := bind (theta_rad g) (fun w => Ok (M (cos w) (- sin w) 0 (sin w) (cos w) 0 0 0 1)).
(** goniometer.py:114-133. *)
Definition u_phi (w chi phi : R) : v3 :=
  V (cos w * cos chi * cos phi - sin w * sin phi) (cos w * cos chi * sin phi + sin w * cos phi) (cos w * sin chi).
(** goniometer.py:93-101. *)
Definition T_c (g : gonio) : m3 := mT (rows3 (go_u g) (go_v g) (cross (go_u g) (go_v g))).
Definition T_phi (g : gonio) : m3 :=
  mT (rows3 (u_phi (rad (go_theta_u g)) (sgl_rad g) (sgu_rad g)) (u_phi (rad (go_theta_v g)) (sgl_rad g) (sgu_rad g))
            (u_phi (rad 0) (rad 90) (rad 0))).
(** goniometer.py:103-105. *)
Definition gR (g : gonio) : res m3 := bind (gOmega g) (fun w => Ok (mmul (mmul w (gM g)) (gN g))).
(** goniometer.py:107-112; [None]: np.linalg.inv raises LinAlgError for a singular matrix. *)
Definition gU (g : gonio) : option m3 := if Req_EM_T (det (T_c g)) 0 then None else Some (mmul (T_phi g) (inv (T_c g))).

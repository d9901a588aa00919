(** The state kept by a triple-axis instrument between calls: TripleAxisInstrument.calc_resolution,
    neutronpy/instrument/tas_instrument.py:931-997, and GeneralInstrument.get_resolution,
    neutronpy/instrument/general.py:227-252, over the reals.
    One-dimensional arguments.  Points with Q = 0, and an orient1 of length 0, where the coordinate system is nan, are outside
    the model: a call with such a point has no outcome ([None]). *)
From Coq Require Import String List ZArith Reals.
From Verif Require Import Base MatInv TasModel LinAlg LatticeModel SysModel ToolsModel.
Import ListNotations.
Local Open Scope R_scope.

(** Entries that may be nan. *)
Definition omat : Type := nat -> nat -> option R.
Definition finite (A : mat) : omat := fun i j => Some (A i j).
(** What is stored for one point: R0, RMS and RM; [None] as in TasModel.calc_in_Q. *)
Record outcome := mkO { o_R0 : option R; o_RMS : omat; o_RM : omat }.
(** The smoothing widths X, Y, E, Z. *)
Record smooth := mkSm { sm_X : R; sm_Y : R; sm_E : R; sm_Z : R }.
(** The attributes H, K, L, W: four arrays. *)
Record hklw := mkH { h_H : list R; h_K : list R; h_L : list R; h_W : list R }.
Record inst := mkInst { i_tas : tas; i_lat : lattice; i_o1 : v3; i_o2 : v3; i_smooth : option smooth;
  i_last : option hklw; i_res : option (list outcome) }.
(** The argument hkle: each of the four a number or an array. *)
Record query := mkQ { q_H : @clean_arg R; q_K : @clean_arg R; q_L : @clean_arg R; q_W : @clean_arg R }.

Definition with_shape (t : tas) (s : option shape) : tas :=
  mkTas (t_method t) (t_moncor t) (t_hcol t) (t_vcol t) (t_mono t) (t_ana t) (t_thickness t) (t_Q t) (t_infin t) (t_efixed t)
    (t_arms t) (t_horifoc t) (t_guide t) (t_monitor t) (t_detector t) (s_dir t) (s_mosaic t) (s_vmosaic t) (s_type t)
    (s_width t) (s_height t) (s_depth t) s.
Definition set_tas (I : inst) (t : tas) : inst := mkInst t (i_lat I) (i_o1 I) (i_o2 I) (i_smooth I) (i_last I) (i_res I).
Definition set_last (I : inst) (h : hklw) : inst := mkInst (i_tas I) (i_lat I) (i_o1 I) (i_o2 I) (i_smooth I) (Some h) (i_res I).
Definition set_res (I : inst) (r : list outcome) : inst := mkInst (i_tas I) (i_lat I) (i_o1 I) (i_o2 I) (i_smooth I) (i_last I) (Some r).

(** tas_instrument.py:950-953: _CleanArgs of the four arguments. *)
Definition clean (q : query) : res hklw :=
  bind (clean_args [q_H q; q_K q; q_L q; q_W q]) (fun '(_, l) =>
  match l with [h; k; l; w] => Ok (mkH h k l w) | _ => Err ValueError end).
Fixpoint zip4 (h k l w : list R) : list (v3 * R) :=
  match h, k, l, w with
  | a :: h, b :: k, c :: l, e :: w => (V a b c, e) :: zip4 h k l w
  | _, _, _, _ => []
  end.
(** The points in order; the four arrays have the same length. *)
Definition points_of (h : hklw) : list (v3 * R) := zip4 (h_H h) (h_K h) (h_L h) (h_W h).

(** tas_instrument.py:964-965, 975: the first three rows, and all, of tmat. *)
Definition rot3 (c : R * R * R) : mat := let '(_, a, b) := c in mx [[a; b; 0]; [- b; a; 0]; [0; 0; 1]].
Definition tmat (c : R * R * R) : mat := let '(_, a, b) := c in mx [[a; b; 0; 0]; [- b; a; 0; 0]; [0; 0; 1; 0]; [0; 0; 0; 1]].
(** tas_instrument.py:971-977: the shape of the sample is replaced by one array for each point; np.matrix of a stack of one
    array drops the first axis, of any other number of them raises ValueError. *)
Definition turned (c : R * R * R) (m : mat) : mat := mul 3 (mul 3 (rot3 c) m) (tr (rot3 c)).
Definition turn_shape (s : option shape) (cs : list (R * R * R)) : res (option shape) :=
  match s with
  | None => Ok None
  | Some (S2 m) => Ok (Some (S3 (map (fun c => turned c m) cs)))
  | Some (S3 [m]) => Ok (Some (S3 (map (fun c => turned c m) cs)))
  | Some (S3 _) => match cs with [] => Ok (Some (S3 [])) | _ => Err ValueError end
  end.

(** tas_instrument.py:984, 988-995: matrices are divided entry by entry, so a diagonal matrix divided by another one
    has 0 / 0 off the diagonal.  1 / (1 / x) is written x. *)
Definition smoothed (s : smooth) (A : mat) : omat := fun i j =>
  if Nat.eqb i j then
    if Req_EM_T (A i i) 0 then None
    else let e := nth i [sm_X s; sm_Y s; sm_E s; sm_Z s] 0 ^ 2 / (8 * ln 2) + 1 / A i i in if Req_EM_T e 0 then None else Some (1 / e)
  else None.
(** tas_instrument.py:981-997, one point. *)
Definition finish (s : option smooth) (c : R * R * R) (o : option (R * mat)) : outcome :=
  match o with
  | None => mkO None (fun _ _ => None) (fun _ _ => None)
  | Some (r, A) =>
      let RMS := mul 4 (tr (tmat c)) (mul 4 A (tmat c)) in
      match s with
      | Some w => if Req_EM_T (sm_X w) 0 then mkO (Some r) (finite RMS) (finite A) else mkO None (smoothed w RMS) (finite A)
      | None => mkO (Some r) (finite RMS) (finite A)
      end
  end.

Fixpoint all_some {A} (l : list (option A)) : option (list A) :=
  match l with
  | [] => Some []
  | Some a :: r => match all_some r with Some s => Some (a :: s) | None => None end
  | None :: _ => None
  end.
(** tas_instrument.py:949-997.  Attributes assigned before an exception stay assigned: H, K, L, W, then the shape. *)
Definition calc_resolution (I : inst) (q : query) : option (inst * res unit) :=
  match clean q with
  | Err e => Some (I, Err e)
  | Ok h =>
      let I := set_last I h in
      match standard_system (i_lat I) (i_o1 I) (i_o2 I) with
      | Err e => Some (I, Err e)
      | Ok _ =>
          let pts := points_of h in
          match map_res (fun p => in_system (i_lat I) (i_o1 I) (i_o2 I) (fst p)) pts with
          | Err e => Some (I, Err e)
          | Ok ocs =>
              match all_some ocs with
              | None => None
              | Some cs =>
                  match turn_shape (s_shape (i_tas I)) cs with
                  | Err e => Some (I, Err e)
                  | Ok s =>
                      let I := set_tas I (with_shape (i_tas I) s) in
                      match calc_in_Q (i_tas I) (combine (map (fun c => fst (fst c)) cs) (map snd pts)) with
                      | Err e => Some (I, Err e)
                      | Ok rs => Some (set_res I (map (fun '(c, o) => finish (i_smooth I) c o) (combine cs rs)), Ok tt)
                      end
                  end
              end
          end
      end
  end.

(** np.all(a == b) for an argument and a stored array, with broadcasting: a number or an array of length 1 is compared with
    every element; other lengths that differ compare as False. *)
Definition all_eq (a : @clean_arg R) (b : list R) : bool :=
  let eqb x y := if Req_EM_T x y then true else false in
  match to_list a, b with
  | [x], _ => forallb (eqb x) b
  | l, [y] => forallb (fun x => eqb x y) l
  | l, _ => (Nat.eqb (length l) (length b) && forallb (fun '(x, y) => eqb x y) (combine l b))%bool
  end.
Definition same_query (q : query) (h : hklw) : bool :=
  (all_eq (q_H q) (h_H h) && all_eq (q_K q) (h_K h) && all_eq (q_L q) (h_L h) && all_eq (q_W q) (h_W h))%bool.
(** general.py:238-252.  An instrument that has not calculated anything has no attributes H and RMS: AttributeError, and the
    calculation is made. *)
Definition get_resolution (I : inst) (q : query) : option (inst * res (list outcome)) :=
  let again := match calc_resolution I q with
               | None => None
               | Some (J, Err e) => Some (J, Err e)
               | Some (J, Ok _) => Some (J, match i_res J with Some r => Ok r | None => Err AttributeError end)
               end in
  match i_last I, i_res I with
  | Some h, Some r => if same_query q h then Some (I, Ok r) else again
  | _, _ => again
  end.

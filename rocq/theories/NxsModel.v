(** Reading the HDF5 files exported by GRASP (extension nxs).
    Source: /repo/neutronpy/fileio/loaders/grasp.py:37-59, /repo/neutronpy/fileio/data.py:49-75 and
    the accessors of /repo/neutronpy/data/data.py.
    Numbers are exact rationals (no missing numbers, no rounding). *)
From Coq Require Import String List QArith Qabs Bool Arith.
From Verif Require Import Base DataModel OpsModel.
Import ListNotations.
Local Open Scope string_scope.

(** A numerical array: its shape and its entries in row-major order. *)
Record array := mkArr { shape : list nat; vals : list Q }.

(** The datasets of an HDF5 file by their paths ([h5py.File], grasp.py:40). *)
Definition file := list (string * array).

(** [f[path]] (grasp.py:42-47); h5py raises KeyError when there is no such dataset. *)
Fixpoint dataset (f : file) (path : string) : res array :=
  match f with
  | [] => Err KeyError
  | (p, a) :: f' => if String.eqb p path then Ok a else dataset f' path
  end.

(** [np.squeeze] (grasp.py:42-47): axes of length one are dropped. *)
Definition squeeze (a : array) : array :=
  mkArr (filter (fun n => negb (Nat.eqb n 1)) (shape a)) (vals a).

(** [np.ones(a.shape)] (grasp.py:55-56). *)
Definition ones (a : array) : array := mkArr (shape a) (map (fun _ => 1) (vals a)).

(** The attributes of a Grasp object ([_data], [data_keys], [m0], [t0], [_err], [time_norm]). *)
Record grasp := mkGrasp {
  g_data : list (key * array); g_dk : dkeys; g_m0 : Q; g_t0 : Q; g_err : array; g_tn : bool }.

(** grasp.py:58 [data_keys]. *)
Definition nxs_dkeys : dkeys := mkDKeys "intensity" "monitor" "time".

(** grasp.py:37-59 [load_nxs] on an object just made (grasp.py:13-14): [Data.__init__] without
    arguments leaves [m0] = [t0] = 0 (the largest entries of columns of zeros, data.py:92-132) and
    [time_norm] = False. *)
Definition load_nxs (f : file) : res grasp :=
  bind (dataset f "entry0/data1/intensity1") (fun i =>
  bind (dataset f "entry0/data1/qx1") (fun qx =>
  bind (dataset f "entry0/data1/qy1") (fun qy =>
  bind (dataset f "entry0/data1/qangle1") (fun qa =>
  bind (dataset f "entry0/data1/mod_q1") (fun mq =>
  bind (dataset f "entry0/data1/err_intensity1") (fun er =>
  let intensity := squeeze i in
  let err := squeeze er in
  Ok (mkGrasp [("intensity", intensity); ("qx", squeeze qx); ("qy", squeeze qy);
               ("qangles", squeeze qa); ("mod_q", squeeze mq); ("err_intensity", err);
               ("monitor", ones intensity); ("time", ones intensity)]
              nxs_dkeys 0 0 err false))))))).

(** [self.data[key]] (data.py:409-413). *)
Fixpoint g_col (cs : list (key * array)) (k : key) : res array :=
  match cs with
  | [] => Err KeyError
  | (k', a) :: cs' => if String.eqb k' k then Ok a else g_col cs' k
  end.

(** data.py:209-357 [h], [k], [l], [e], [temp]: the column named by [Q_keys] (data.py:96), which
    [load_nxs] does not change. *)
Definition g_coordinate (g : grasp) (name : key) : res array := g_col (g_data g) name.

(** data.py:209-212 [Q]: the five coordinate columns stacked (their flattened entries). *)
Definition g_Q (g : grasp) : res (list (list Q)) :=
  map_res (fun n => bind (g_coordinate g n) (fun a => Ok (vals a))) ["h"; "k"; "l"; "e"; "temp"].

Fixpoint shape_eqb (a b : list nat) : bool :=
  match a, b with
  | [], [] => true
  | x :: a', y :: b' => Nat.eqb x y && shape_eqb a' b'
  | _, _ => false
  end.

(** [x / norm * reference] (data.py:368, 372, 391, 395) for arrays of the same shape.
    Simplification: different shapes are a ValueError, numpy would broadcast some of them. *)
Definition normalised (x nrm : array) (r : Q) : res (list nat * list (option Q)) :=
  if shape_eqb (shape x) (shape nrm)
  then Ok (shape x, zip_with (fun a b => option_map (fun q => q * r) (fdiv a b)) (vals x) (vals nrm))
  else Err ValueError.

(** data.py:365-372, 388-395: the reference used, the largest entry of the norm when it is 0.
    Simplification: that the value found is stored for the next time is left out here, [as_data]
    below leads to the model with the stored value. *)
Definition g_reference (g : grasp) : res Q :=
  let r := if g_tn g then g_t0 g else g_m0 g in
  if Qeq_bool r 0
  then bind (g_col (g_data g) (if g_tn g then ktime (g_dk g) else kmon (g_dk g)))
            (fun a => nanmax (vals a))
  else Ok r.

Definition g_norm (g : grasp) : res array :=
  g_col (g_data g) (if g_tn g then ktime (g_dk g) else kmon (g_dk g)).

(** data.py:359-372 [intensity]. *)
Definition g_intensity (g : grasp) : res (list nat * list (option Q)) :=
  bind (g_reference g) (fun r =>
  bind (g_col (g_data g) (kdet (g_dk g))) (fun x =>
  bind (g_norm g) (fun n => normalised x n r))).

(** data.py:374-395 [error]; [_err] is set. *)
Definition g_error (g : grasp) : res (list nat * list (option Q)) :=
  bind (g_reference g) (fun r => bind (g_norm g) (fun n => normalised (g_err g) n r)).

(** [time_norm] is a plain attribute (data.py:125) the user may set. *)
Definition set_tn (b : bool) (g : grasp) : grasp :=
  mkGrasp (g_data g) (g_dk g) (g_m0 g) (g_t0 g) (g_err g) b.

(** The same object as a table of points, when all columns are one-dimensional and have the same
    number of entries.  Combination of arrays with more axes is not modelled. *)
Definition as_data (g : grasp) : option data :=
  match g_data g with
  | [] => None
  | (_, a) :: _ =>
      match shape a with
      | [n] =>
          if forallb (fun c => shape_eqb (shape (snd c)) [n] && Nat.eqb (List.length (vals (snd c))) n)
                     (g_data g)
          then Some (mkData
                 (mkTable (map fst (g_data g))
                          (map (fun i => map (fun c => nth i (vals (snd c)) 0) (g_data g)) (seq 0 n)))
                 (g_dk g) (g_m0 g) (g_t0 g) (Some (vals (g_err g))) (g_tn g))
          else None
      | _ => None
      end
  end.

(** fileio/data.py:66-67: a number given as [tols] becomes one tolerance per column that is not
    named in [data_keys]. *)
Definition file_tols (g : grasp) (q : Q) : tolarg := TolSeq (repeat q (List.length (g_data g) - 3)).

(** fileio/data.py:69-72: the second and later files are combined with what was read, in place.
    [None]: not a table of points. *)
Definition load_two (f1 f2 : file) (q : Q) : option (res data) :=
  match load_nxs f1 with
  | Err e => Some (Err e)
  | Ok g1 =>
      match load_nxs f2 with
      | Err e => Some (Err e)
      | Ok g2 =>
          match as_data g1, as_data g2 with
          | Some d1, Some d2 => Some (combine_inplace d1 d2 (file_tols g1 q))
          | _, _ => None
          end
      end
  end.

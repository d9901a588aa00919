(** Operators, normalisation, background subtraction, constructor and setters of datasets.
    Source: /repo/neutronpy/data/data.py. *)
From Coq Require Import String List QArith Qabs Qround Bool Arith ZArith.
From Verif Require Import Base DataModel.
Import ListNotations.
Local Open Scope string_scope.

(** ** Operators (data.py:158-193) *)

(** The binary operators that build a new object from the detector column. *)
Inductive binop := OMul | ODiv | OFloorDiv | OPow.

(** Elementwise result; [None] stands for a non-finite floating point result (division by zero,
    0 ** negative), which the rational model does not represent.  For [OPow] the operand is an
    integer exponent (fractional powers are not modelled). *)
Definition op_value (o : binop) (v x : Q) : option Q :=
  match o with
  | OMul => Some (v * x)
  | ODiv => if Qeq_bool x 0 then None else Some (v / x)
  | OFloorDiv => if Qeq_bool x 0 then None else Some (inject_Z (Qfloor (v / x)))
  | OPow => if Qeq_bool (inject_Z (Qnum x)) x then
              if Qeq_bool v 0 && (Qnum x <? 0)%Z then None else Some (Qpower v (Qnum x))
            else None
  end.

Fixpoint map_opt {A B} (f : A -> option B) (l : list A) : option (list B) :=
  match l with
  | [] => Some []
  | a :: l' => match f a, map_opt f l' with Some b, Some bs => Some (b :: bs) | _, _ => None end
  end.

(** data.py:158-161, 174-177, 182-185, 190-193: deepcopy of self with only the detector column
    replaced.  [None]: a non-finite entry would arise. *)
Definition binop_data (o : binop) (d : data) (x : Q) : option data :=
  let ks := keys (tab d) in
  match map_opt (fun r => match lookup ks r (kdet (dk d)) with
                          | Some v => match op_value o v x with
                                      | Some v' => Some (set_in_row ks r (kdet (dk d)) v')
                                      | None => None end
                          | None => Some r end) (rows (tab d)) with
  | Some rs => Some (mkData (mkTable ks rs) (dk d) (m0 d) (t0 d) (err d) (time_norm d))
  | None => None
  end.

(** ** Normalised intensity and error (data.py:359-395) *)

(** Floating point division, non-finite results as [None]. *)
Definition fdiv (a b : Q) : option Q := if Qeq_bool b 0 then None else Some (a / b).

(** numpy nanmax on finite data: largest entry; ValueError on an empty column. *)
Definition qmax (a b : Q) : Q := if Qle_bool a b then b else a.
Definition nanmax (l : list Q) : res Q :=
  match l with [] => Err ValueError | x :: l' => Ok (fold_left qmax l' x) end.

Definition getcol (tb : table) (k : key) : res (list Q) :=
  match col tb k with Some c => Ok c | None => Err KeyError end.

(** data.py:365-372: the reference (t0 or m0), recomputed and stored when it is 0. *)
Definition norm_key (d : data) : key := if time_norm d then ktime (dk d) else kmon (dk d).
Definition reference (d : data) : res (Q * data) :=
  let r := if time_norm d then t0 d else m0 d in
  if Qeq_bool r 0 then
    match getcol (tab d) (norm_key d) with
    | Err e => Err e
    | Ok c => match nanmax c with
              | Err e => Err e
              | Ok m => Ok (m, if time_norm d
                               then mkData (tab d) (dk d) (m0 d) m (err d) (time_norm d)
                               else mkData (tab d) (dk d) m (t0 d) (err d) (time_norm d))
              end
    end
  else Ok (r, d).

Fixpoint zip_with {A B C} (f : A -> B -> C) (l1 : list A) (l2 : list B) : list C :=
  match l1, l2 with
  | a :: l1', b :: l2' => f a b :: zip_with f l1' l2'
  | _, _ => []
  end.

(** data.py:360-372 [intensity]: detector / norm * reference.  Returns the values and the state
    (the cached reference may have been filled in). *)
Definition intensity (d : data) : res (list (option Q) * data) :=
  match getcol (tab d) (kdet (dk d)), getcol (tab d) (norm_key d) with
  | Ok det, Ok nrm =>
      match reference d with
      | Ok (m, d') => Ok (zip_with (fun a b => option_map (fun q => q * m) (fdiv a b)) det nrm, d')
      | Err e => Err e
      end
  | Err e, _ => Err e
  | _, Err e => Err e
  end.

(** data.py:375-395 [error], squared: err^2 is [_err]^2 if set, else detector; then the same
    normalisation.  (The square avoids the square root; for a negative count the code yields nan.) *)
Definition error_sq (d : data) : res (list (option Q) * data) :=
  match getcol (tab d) (kdet (dk d)), getcol (tab d) (norm_key d) with
  | Ok det, Ok nrm =>
      match reference d with
      | Ok (m, d') =>
          let e2 := match err d with Some es => map (fun e => e * e) es | None => det end in
          Ok (zip_with (fun a b => option_map (fun q => q * (m * m)) (fdiv a (b * b))) e2 nrm, d')
      | Err e => Err e
      end
  | Err e, _ => Err e
  | _, Err e => Err e
  end.

(** data.py:92-132 for an already rectangular table: m0 and t0 are the largest monitor and time
    readings, no explicit error. *)
Definition fresh (tb : table) (k : dkeys) (tn : bool) : res data :=
  match getcol tb (kmon k), getcol tb (ktime k) with
  | Ok mon, Ok tim =>
      match nanmax mon, nanmax tim with
      | Ok m, Ok t => Ok (mkData tb k m t None tn)
      | _, _ => Err ValueError
      end
  | _, _ => Err KeyError
  end.

(** ** Background subtraction without interpolation key (data.py:502-516, 543-559) *)

(** numpy broadcasting of two one-dimensional arrays. *)
Definition broadcast {A} (f : A -> A -> A) (l1 l2 : list A) : res (list A) :=
  if Nat.eqb (List.length l1) (List.length l2) then Ok (zip_with f l1 l2)
  else match l1, l2 with
       | [a], _ => Ok (map (f a) l2)
       | _, [b] => Ok (map (fun a => f a b) l1)
       | _, _ => Err ValueError
       end.

Definition opt2 {A B C} (f : A -> B -> C) (a : option A) (b : option B) : option C :=
  match a, b with Some x, Some y => Some (f x y) | _, _ => None end.

(** The subtracted object: coordinates of self, detector = new intensity, monitor and time all
    ones, m0 = t0 = 1, explicit error.  Entries may be non-finite, hence a record of its own. *)
Record subtracted := mkSub {
  s_coords : list (list Q);
  s_detector : list (option Q);
  s_monitor : list Q;
  s_time : list Q;
  s_m0 : Q; s_t0 : Q;
  s_errsq : list (option Q);
  s_time_norm : bool }.

Definition subtract (self bg : data) : res subtracted :=
  match intensity self, intensity bg, error_sq self, error_sq bg with
  | Ok (i1, _), Ok (i2, _), Ok (e1, _), Ok (e2, _) =>
      match broadcast (opt2 Qminus) i1 i2 with
      | Err e => Err e
      | Ok ni =>
          Ok (mkSub (map (coords (dk_list (dk self)) (keys (tab self))) (rows (tab self)))
                    ni (map (fun _ => 1) ni) (map (fun _ => 1) ni) 1 1
                    (zip_with (opt2 qmax) e1 e2) (time_norm self))
      end
  | Err e, _, _, _ => Err e
  | _, Err e, _, _ => Err e
  | _, _, Err e, _ => Err e
  | _, _, _, Err e => Err e
  end.

(** intensity and squared error of the subtracted object (data.py:365-372, 386-395), normalised to
    time or monitor as self is. *)
Definition s_ref (s : subtracted) : Q := if s_time_norm s then s_t0 s else s_m0 s.
Definition s_norm (s : subtracted) : list Q := if s_time_norm s then s_time s else s_monitor s.
Definition s_intensity (s : subtracted) : list (option Q) :=
  zip_with (fun a b => match a with Some x => option_map (fun q => q * s_ref s) (fdiv x b) | None => None end)
           (s_detector s) (s_norm s).
Definition s_error_sq (s : subtracted) : list (option Q) :=
  zip_with (fun a b => match a with Some x => option_map (fun q => q * (s_ref s * s_ref s)) (fdiv x (b * b)) | None => None end)
           (s_errsq s) (s_norm s).

(** data.py:517-541: subtraction over a column [x]: every point takes the background value at the
    nearest background point.  scipy's griddata(method='nearest') is the parameter [near], which
    returns a position in its first argument; [qk] is the coordinate dictionary. *)
Fixpoint assoc (l : list (key * key)) (k : key) : option key :=
  match l with [] => None | (a, b) :: l' => if String.eqb a k then Some b else assoc l' k end.
Definition column_pair (self bg : data) (qk : list (key * key)) (x : key) : res (list Q * list Q) :=
  match col (tab bg) x, col (tab self) x with
  | Some b, Some s => Ok (b, s)
  | _, _ => match assoc qk x with
            | None => Err KeyError
            | Some x' => match col (tab bg) x', col (tab self) x' with Some b, Some s => Ok (b, s) | _, _ => Err KeyError end
            end
  end.
Definition subtract_x (near : list Q -> Q -> nat) (qk : list (key * key)) (self bg : data) (x : key) : res subtracted :=
  match column_pair self bg qk x, intensity self, intensity bg, error_sq self, error_sq bg with
  | Ok (bx, sx), Ok (i1, _), Ok (i2, _), Ok (e1, _), Ok (e2, _) =>
      let gi := map (fun q => nth (near bx q) i2 None) sx in
      let ge := map (fun q => nth (near bx q) e2 None) sx in
      let ni := zip_with (opt2 Qminus) i1 gi in
      Ok (mkSub (map (coords (dk_list (dk self)) (keys (tab self))) (rows (tab self)))
                ni (map (fun _ => 1) ni) (map (fun _ => 1) ni) 1 1
                (zip_with (opt2 qmax) e1 ge) (time_norm self))
  | Err e, _, _, _, _ => Err e
  | _, Err e, _, _, _ => Err e
  | _, _, Err e, _, _ => Err e
  | _, _, _, Err e, _ => Err e
  | _, _, _, _, Err e => Err e
  end.

(** ** Augmented assignment (data.py:140-144, 152-156, 163-164, 179-180, 187-188) *)

(** Python values a name can be bound to. *)
Inductive pyval := VData (d : data) | VNone.

(** The augmented assignments [d op= x]. *)
Inductive augop := AAdd (other : data) | ASub (other : data) | AMul (x : Q) | ADiv (x : Q) | AFloorDiv (x : Q).

(** State of the object after the method ran. *)
Inductive mutated := MData (d : option data) | MSub (s : subtracted).

(** The [__i..__] methods mutate self and have no return statement, so Python rebinds the name to
    None; [__ifloordiv__] refers to an undefined name.  Returns the mutated object and the value the
    name is bound to afterwards. *)
Definition aug_exec (d : data) (a : augop) : res (mutated * pyval) :=
  match a with
  | AAdd o => match combine_inplace d o TolDefault with
              | Ok d' => Ok (MData (Some d'), VNone)
              | Err e => Err e end
  | ASub o => match subtract d o with
              | Ok s => Ok (MSub s, VNone)
              | Err e => Err e end
  | AMul x => Ok (MData (binop_data OMul d x), VNone)
  | ADiv x => Ok (MData (binop_data ODiv d x), VNone)
  | AFloorDiv _ => Err NameError
  end.

(** ** Constructor and setters on columns (data.py:92-132, 257-357) *)

(** An argument: a number, a numpy array, or a plain Python list. *)
Inductive arg := ANum (q : Q) | AArr (l : list Q).

Definition columns := list (key * list Q).
Fixpoint cget (c : columns) (k : key) : option (list Q) :=
  match c with [] => None | (k', v) :: c' => if String.eqb k' k then Some v else cget c' k end.
(** OrderedDict assignment: replaces in place or appends. *)
Fixpoint cset (c : columns) (k : key) (v : list Q) : columns :=
  match c with
  | [] => [(k, v)]
  | (k', v') :: c' => if String.eqb k' k then (k, v) :: c' else (k', v') :: cset c' k v
  end.

Definition expand (n : nat) (a : arg) : list Q :=
  match a with ANum q => repeat q n | AArr l => l end.
Definition arg_lens (l : list arg) : list nat :=
  flat_map (fun a => match a with ANum _ => [] | AArr v => [List.length v] end) l.

(** data.py:98-121 with Q=None.  [n_dim] is the largest array length, 1 if all are numbers. *)
Definition n_dim (h k l e temp detector monitor time : arg) : nat :=
  match arg_lens [h; k; l; e; temp; detector; monitor; time] with
  | [] => 1%nat
  | lens => list_max lens
  end.
Definition build (h k l e temp detector monitor time : arg) : columns :=
  let n := n_dim h k l e temp detector monitor time in
  [("h", expand n h); ("k", expand n k); ("l", expand n l); ("e", expand n e);
   ("temp", expand n temp); ("detector", expand n detector); ("monitor", expand n monitor);
   ("time", expand n time)].

(** data.py:114-121 with Q given: [Q] is a list of rows of five numbers; n_dim = Q.shape[1] = 5. *)
Definition build_Q (Q : list (Q * Q * Q * Q * Q)) (detector monitor time : arg) : columns :=
  let n := 5%nat in
  [("h", map (fun '(a, _, _, _, _) => a) Q); ("k", map (fun '(_, a, _, _, _) => a) Q);
   ("l", map (fun '(_, _, a, _, _) => a) Q); ("e", map (fun '(_, _, _, a, _) => a) Q);
   ("temp", map (fun '(_, _, _, _, a) => a) Q);
   ("detector", expand n detector); ("monitor", expand n monitor); ("time", expand n time)].

(** Values that can be assigned to a column property. *)
Inductive setval := SNum (q : Q) | SArr (l : list Q) | SList (l : list Q).

(** data.py:257-269 (and the identical setters for k, l, e, temp): numbers are repeated to the
    number of detector readings, arrays must have that length, plain lists have no [shape]. *)
Definition set_coord (c : columns) (k : key) (v : setval) : res columns :=
  match cget c "detector" with
  | None => Err KeyError
  | Some det =>
      match v with
      | SNum q => Ok (cset c k (repeat q (List.length det)))
      | SArr l => if Nat.eqb (List.length l) (List.length det) then Ok (cset c k l) else Err ValueError
      | SList _ => Err AttributeError
      end
  end.

(** data.py:225-247: the setters of detector, monitor and time store the value unchecked. *)
Definition set_counts (c : columns) (k : key) (l : list Q) : columns := cset c k l.

(** A history of assignments; a raising assignment leaves the columns as they were. *)
Inductive assign := SetCoord (k : key) (v : setval) | SetCounts (k : key) (l : list Q).
Definition run_assign (c : columns) (a : assign) : columns :=
  match a with
  | SetCoord k v => match set_coord c k v with Ok c' => c' | Err _ => c end
  | SetCounts k l => set_counts c k l
  end.
Definition run_assigns (c : columns) (l : list assign) : columns := fold_left run_assign l c.

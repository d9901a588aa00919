(** Rotations and translations of operations: get_formatted_operations, get_rotation, get_translation and symmetrize_position,
    /repo/neutronpy/crystal/symmetry.py:98-154. *)
From Coq Require Import String List ZArith QArith.
From Verif Require Import Base SymModel.
Import ListNotations.
Local Open Scope list_scope.

(** A numpy array of any number of dimensions. *)
Inductive arr := Num (x : Q) | Arr (l : list arr).
Definition row (a b c : Z) (t : Q) : arr := Arr [Num (inject_Z a); Num (inject_Z b); Num (inject_Z c); Num t].
(** The array of an operation, symmetry.py:197-200. *)
Definition array (o : op) : arr := Arr [row (r11 o) (r12 o) (r13 o) (t1 o); row (r21 o) (r22 o) (r23 o) (t2 o); row (r31 o) (r32 o) (r33 o) (t3 o); row 0 0 0 1].
(** What the functions are given: a text, a list whose first entry is a text (all of them texts), an array, a list of arrays. *)
Inductive given := Text (s : string) | Texts (l : list string) | Array (a : arr) | Arrays (l : list arr).
(** symmetry.py:119-126; an empty list has no first entry. *)
Definition formatted (g : given) : res (list arr) :=
  match g with
  | Text s => bind (get_generator_from_str [s]) (fun l => Ok (map array l))
  | Texts [] | Arrays [] => Err IndexError
  | Texts l => bind (get_generator_from_str l) (fun l => Ok (map array l))
  | Array a => Ok [a]
  | Arrays l => Ok l
  end.
(** x[:3, :3] and x[:3, 3]; IndexError for too few dimensions or, in the second, a fourth entry missing. *)
Definition part (f : list arr -> res arr) (x : arr) : res arr :=
  match x with
  | Arr l => bind (map_res (fun r => match r with Arr m => f m | Num _ => Err IndexError end) (firstn 3 l)) (fun l => Ok (Arr l))
  | Num _ => Err IndexError
  end.
Definition rotation_part : arr -> res arr := part (fun m => Ok (Arr (firstn 3 m))).
Definition translation_part : arr -> res arr := part (fun m => match nth_error m 3 with Some x => Ok x | None => Err IndexError end).
(** One array, or a list of them. *)
Inductive parts := One (a : arr) | Several (l : list arr).
(** symmetry.py:133-140, 147-154 *)
Definition unwrap (l : list arr) : parts := match l with [a] => One a | _ => Several l end.
Definition get_rotation (g : given) : res parts := bind (formatted g) (fun l => bind (map_res rotation_part l) (fun l => Ok (unwrap l))).
Definition get_translation (g : given) : res parts := bind (formatted g) (fun l => bind (map_res translation_part l) (fun l => Ok (unwrap l))).
(** np.dot of an array of two dimensions with a vector; the sum of vectors. *)
Definition dot_row (m v : list arr) : Q := fold_right Qplus 0 (map (fun p => match p with (Num a, Num b) => a * b | _ => 0 end) (combine m v)).
Definition dot (m : arr) (v : list Q) : list Q := match m with Arr l => map (fun r => match r with Arr m => dot_row m (map Num v) | Num _ => 0 end) l | Num _ => [] end.
Definition plus (u : list Q) (t : arr) : list Q := match t with Arr l => map (fun p => match snd p with Num b => fst p + b | Arr _ => fst p end) (combine u l) | Num _ => u end.
(** symmetry.py:102-106 for one operation. *)
Definition image (o : op) (v : list Q) : res (list Q) :=
  bind (get_rotation (Array (array o))) (fun r => bind (get_translation (Array (array o))) (fun t =>
  match r, t with One r, One t => Ok (plus (dot r v) t) | _, _ => Err TypeError end)).

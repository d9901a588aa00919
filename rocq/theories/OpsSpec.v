(** Vocabulary for the properties of dataset operators, normalisation and setters. *)
From Coq Require Import String List QArith Qabs Bool Arith.
From Verif Require Import Base DataModel DataSpec OpsModel.
Import ListNotations.

(** [m] is the largest entry of [c]. *)
Definition is_largest (m : Q) (c : list Q) : Prop := In m c /\ Forall (fun x => x <= m) c.

(** Equality of possibly non-finite numbers: both non-finite or equal numbers. *)
Definition oeq (a b : option Q) : Prop :=
  match a, b with Some x, Some y => x == y | None, None => True | _, _ => False end.

(** The normalisation column: monitor, or time when [time_norm] is set. *)
Definition norm_column (d : data) : key := if time_norm d then ktime (dk d) else kmon (dk d).

(** Pointwise value of detector / norm * reference; non-finite when the norm reading is 0. *)
Definition normalised (reference det nrm : Q) (v : option Q) : Prop :=
  (nrm == 0 /\ v = None) \/ (~ nrm == 0 /\ exists q, v = Some q /\ q == det / nrm * reference).

(** All columns have [n] entries. *)
Definition rectangular (n : nat) (c : columns) : Prop :=
  Forall (fun kv => List.length (snd kv) = n) c.

(** The eight standard columns are present. *)
Definition standard (c : columns) : Prop :=
  map fst c = ["h"; "k"; "l"; "e"; "temp"; "detector"; "monitor"; "time"]%string.

(** An argument fits [n] points: a number, or an array of [n] entries. *)
Definition fits (n : nat) (a : arg) : Prop :=
  match a with ANum _ => True | AArr l => List.length l = n end.
Definition is_array (a : arg) : Prop := match a with ANum _ => False | AArr _ => True end.

(** The collection of scans: /repo/neutronpy/data/scans.py:35-73, 124-200.
    Scan numbers are strings here; a scan is any value; the plots are not modelled. *)
From Coq Require Import String List Bool Arith.
From Verif Require Import Base.
Import ListNotations.

Definition odict (S : Type) := list (string * S).
Fixpoint oget {S} (d : odict S) (k : string) : option S :=
  match d with [] => None | (k', v) :: d' => if String.eqb k' k then Some v else oget d' k end.
(** OrderedDict item assignment. *)
Fixpoint oset {S} (d : odict S) (k : string) (v : S) : odict S :=
  match d with
  | [] => [(k, v)]
  | (k', v') :: d' => if String.eqb k' k then (k', v) :: d' else (k', v') :: oset d' k v
  end.
(** OrderedDict.update. *)
Definition oupdate {S} (d d' : odict S) : odict S := fold_left (fun acc kv => oset acc (fst kv) (snd kv)) d' d.

(** The constructor argument and the argument of update: nothing, an OrderedDict, anything else. *)
Inductive sarg (S : Type) := NoDict | ODict (d : odict S) | OtherDict.
Arguments NoDict {S}. Arguments ODict {S}. Arguments OtherDict {S}.

(** The object: [scans] may be None, [num_scans] unset. *)
Record scans (S : Type) := mkScans { sc : option (odict S); num : option nat }.
Arguments mkScans {S}. Arguments sc {S}. Arguments num {S}.

(** scans.py:35-41. *)
Definition scans_init {S} (a : sarg S) : res (scans S) :=
  match a with
  | NoDict => Ok (mkScans None None)
  | ODict d => Ok (mkScans (Some d) (Some (List.length d)))
  | OtherDict => Err RuntimeError
  end.

(** scans.py:43-58. *)
Definition scans_update {S} (s : scans S) (a : sarg S) : res (scans S) :=
  match a with
  | ODict d => match sc s with
               | None => Err AttributeError
               | Some old => Ok (mkScans (Some (oupdate old d)) (Some (List.length d)))
               end
  | _ => Err RuntimeError
  end.

(** scans.py:156-157: the loop; [n] entries of the result array are available. *)
Fixpoint fill {S V} (f : S -> res V) (n : nat) (l : odict S) {struct l} : res (list V) :=
  match l with
  | [] => Ok []
  | (_, s) :: l' => match f s with
                    | Err e => Err e
                    | Ok v => match n with
                              | O => Err IndexError
                              | Datatypes.S n' => match fill f n' l' with Ok vs => Ok (v :: vs) | Err e => Err e end
                              end
                    end
  end.
(** scans.py:141-159; the values of the entries not assigned (uninitialised memory) are dropped,
    their number is kept. *)
Definition func_col {S V} (f : S -> res V) (s : scans S) : res (list V * nat) :=
  match sc s with
  | None => Err RuntimeError
  | Some d => match num s with
              | None => Err AttributeError
              | Some n => match fill f n d with
                          | Ok vs => Ok (vs, (n - List.length d)%nat)
                          | Err e => Err e end
              end
  end.

(** A history of update calls with OrderedDicts. *)
Definition run_updates {S} (s : scans S) (us : list (odict S)) : res (scans S) :=
  fold_left (fun acc u => match acc with Ok s => scans_update s (ODict u) | Err e => Err e end) us (Ok s).

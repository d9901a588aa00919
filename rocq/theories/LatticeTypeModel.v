(** Lattice types: /repo/neutronpy/crystal/lattice.py:248-271, over rational lengths and angles. *)
From Coq Require Import String List QArith Bool.
From Verif Require Import Base.
Import ListNotations.
Local Open Scope string_scope.
Local Open Scope Q_scope.

(** lattice.py:77-79: lengths and angles. *)
Record cell6 := mkC { c_a : Q; c_b : Q; c_c : Q; c_al : Q; c_be : Q; c_ga : Q }.

(** len(np.unique([x, y, z])): the number of distinct values. *)
Fixpoint mem_q (x : Q) (l : list Q) : bool :=
  match l with [] => false | y :: r => (Qeq_bool x y || mem_q x r)%bool end.
Fixpoint distinct (l : list Q) : nat :=
  match l with [] => 0%nat | x :: r => if mem_q x r then distinct r else S (distinct r) end.

Definition lengths (c : cell6) : list Q := [c_a c; c_b c; c_c c].
Definition angles (c : cell6) : list Q := [c_al c; c_be c; c_ga c].
Definition is90 (x : Q) : bool := Qeq_bool x 90.

(** lattice.py:248-271; the branches are tried in this order. *)
Definition lattice_type (c : cell6) : res string :=
  if (Nat.eqb (distinct (lengths c)) 3 && Nat.eqb (distinct (angles c)) 3)%bool then Ok "triclinic"
  else if (Nat.eqb (distinct (lengths c)) 3 && negb (is90 (c_be c)) && (is90 (c_al c) && is90 (c_ga c)))%bool
    then Ok "monoclinic"
  else if (Nat.eqb (distinct (lengths c)) 3 && forallb is90 (angles c))%bool then Ok "orthorhombic"
  else if (Nat.eqb (distinct (lengths c)) 1 && Nat.eqb (distinct (angles c)) 1
           && forallb (fun x => negb (Qle_bool 120 x)) (angles c)
           && forallb (fun x => negb (is90 x)) (angles c))%bool then Ok "rhombohedral"
  else if (Nat.eqb (distinct (lengths c)) 2 && Qeq_bool (c_a c) (c_b c) && forallb is90 (angles c))%bool
    then Ok "tetragonal"
  else if (Nat.eqb (distinct (lengths c)) 2 && Qeq_bool (c_a c) (c_b c)
           && forallb is90 (firstn 2 (angles c)) && Qeq_bool (c_ga c) 120)%bool then Ok "hexagonal"
  else if (Nat.eqb (distinct (lengths c)) 1 && forallb is90 (angles c))%bool then Ok "cubic"
  else Err ValueError.

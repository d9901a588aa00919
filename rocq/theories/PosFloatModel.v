(** Equivalent positions in binary64 arithmetic: neutronpy/crystal/symmetry.py:98-106, with each operation rounded.  The exact models are apply (SymModel.v) and apply_real (StructModel.v). *)
From Coq Require Import List ZArith Reals.
From Verif Require Import Base EnergyFloatModel SymFloatModel.
Import ListNotations.
Local Open Scope R_scope.

(** The ways of adding three numbers, up to exchange of the two sides of a sum. *)
Definition orders3 {A} (add : A -> A -> A) (a b c : A) : list A := [add (add a b) c; add (add a c) b; add (add b c) a].
(** np.dot adds the three products of a row in an order that depends on the machine; the products are exact, so adding them without rounding them before makes no difference. *)
Definition summation3 (sum : R -> R -> R -> R) : Prop := forall a b c, In (sum a b c) (orders3 (fun x y => rnd (x + y)) a b c).
(** symmetry.py:104, one coordinate. *)
Definition fcoord (sum : R -> R -> R -> R) (r : Z * Z * Z) (t : R) (p : R * R * R) : R :=
  let '(a, b, c) := r in let '(x, y, z) := p in rnd (sum (rnd (IZR a * x)) (rnd (IZR b * y)) (rnd (IZR c * z)) + t).
(** symmetry.py:104. *)
Definition fapply (sum : R -> R -> R -> R) (p : R * R * R) (f : fop) : R * R * R :=
  let '(r, r', r'') := f_rot f in (fcoord sum r (f1 f) p, fcoord sum r' (f2 f) p, fcoord sum r'' (f3 f) p).
(** symmetry.py:102-106. *)
Definition fsymmetrize (sum : R -> R -> R -> R) (ops : list fop) (p : R * R * R) : list (R * R * R) := map (fapply sum p) ops.

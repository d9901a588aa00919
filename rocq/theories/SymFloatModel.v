(** Operations of a space group in binary64 arithmetic: neutronpy/crystal/symmetry.py:82-96, with each operation rounded.  The exact model is SymModel.v. *)
From Coq Require Import String Ascii List Bool ZArith QArith Qreals Reals.
From Flocq Require Import Core.
From Verif Require Import Base SymModel EnergyFloatModel.
Import ListNotations.
Local Open Scope R_scope.

(** A 4 x 4 array.  The entries of rotations are -1, 0 and 1, their products and sums exact, so they stay integers here; the last row is constant. *)
Record fop := mkF { f_rot : Z * Z * Z * (Z * Z * Z) * (Z * Z * Z); f1 : R; f2 : R; f3 : R }.
Definition rot_of (o : op) : Z * Z * Z * (Z * Z * Z) * (Z * Z * Z) :=
  (r11 o, r12 o, r13 o, (r21 o, r22 o, r23 o), (r31 o, r32 o, r33 o)).
(** symmetry.py:177-179: a generator, whose translation eval reads as the rounded quotient of its two numbers. *)
Definition generator (o : op) : fop := mkF (rot_of o) (rnd (Q2R (t1 o))) (rnd (Q2R (t2 o))) (rnd (Q2R (t3 o))).

(** The ways of adding four numbers, up to exchange of the two sides of a sum. *)
Definition orders {A} (add : A -> A -> A) (a b c d : A) : list A :=
  let s a b c d := add (add (add a b) c) d in let p a b c d := add (add a b) (add c d) in
  [s a b c d; s a b d c; s a c b d; s a c d b; s a d b c; s a d c b; s b c a d; s b c d a; s b d a c; s b d c a; s c d a b; s c d b a; p a b c d; p a c b d; p a d b c].
(** np.einsum adds the four products of a row and a column in an order that depends on the machine; starting from 0, or adding a product without rounding it before, makes no difference here as the products are exact. *)
Definition summation (sum : R -> R -> R -> R -> R) : Prop := forall a b c d, In (sum a b c d) (orders (fun x y => rnd (x + y)) a b c d).

(** symmetry.py:87, one product of np.einsum('ijk,kl', symm_ops, g). *)
Definition row_times (x y z : Z) (m : Z * Z * Z * (Z * Z * Z) * (Z * Z * Z)) : Z * Z * Z :=
  let '(a, b, c, (d, e, f), (g, h, i)) := m in (x * a + y * d + z * g, x * b + y * e + z * h, x * c + y * f + z * i)%Z.
Definition product (sum : R -> R -> R -> R -> R) (s g : fop) : fop :=
  let '(a, b, c, (d, e, f), (h, i, j)) := f_rot s in
  let col x y z t := sum (rnd (IZR x * f1 g)) (rnd (IZR y * f2 g)) (rnd (IZR z * f3 g)) t in
  mkF (row_times a b c (f_rot g), row_times d e f (f_rot g), row_times h i j (f_rot g)) (col a b c (f1 s)) (col d e f (f2 s)) (col h i j (f3 s)).
(** np.mod(x, 1): the remainder of C's fmod is exact; 1 is added to a negative one. *)
Definition fmod1 (x : R) : R := let m := x - IZR (Ztrunc x) in if Rlt_dec m 0 then rnd (m + 1) else m.
(** The literal 1e-15. *)
Definition tol : R := rnd (1 / 1000000000000000).
(** symmetry.py:89-90. *)
Definition reduce1 (x : R) : R := let t := fmod1 x in if Rlt_dec (Rabs (rnd (1 - t))) tol then 0 else t.
Definition freduce (o : fop) : fop := mkF (f_rot o) (reduce1 (f1 o)) (reduce1 (f2 o)) (reduce1 (f3 o)).
(** symmetry.py:91. *)
Definition rot_eq (m n : Z * Z * Z * (Z * Z * Z) * (Z * Z * Z)) : bool :=
  let '(a, b, c, (d, e, f), (g, h, i)) := m in let '(a', b', c', (d', e', f'), (g', h', i')) := n in
  ((a =? a') && (b =? b') && (c =? c') && (d =? d') && (e =? e') && (f =? f') && (g =? g') && (h =? h') && (i =? i'))%Z.
Definition close1 (x y : R) : bool := if Rlt_dec (Rabs (rnd (x - y))) tol then true else false.
Definition alike (s o : fop) : bool := rot_eq (f_rot s) (f_rot o) && close1 (f1 s) (f1 o) && close1 (f2 s) (f2 o) && close1 (f3 s) (f3 o).
(** symmetry.py:88-93, one tested product. *)
Definition fadd (st : list fop * list fop) (o : fop) : list fop * list fop :=
  let o := freduce o in if existsb (fun s => alike s o) (fst st) then st else ((fst st ++ [o])%list, (snd st ++ [o])%list).
(** symmetry.py:86-93, all operations so far times one new operation. *)
Definition ftimes (sum : R -> R -> R -> R -> R) (st : list fop * list fop) (g : fop) : list fop * list fop :=
  fold_left fadd (map (fun s => product sum s g) (fst st)) st.
(** symmetry.py:84-94, the while loop; [None] would be exhausted fuel (shown not to happen for the tabulated groups). *)
Fixpoint fclosure (sum : R -> R -> R -> R -> R) (fuel total : nat) (symm new : list fop) : option (list fop) :=
  match new with
  | [] => Some symm
  | _ =>
      if Nat.ltb (List.length symm) total then
        match fuel with
        | O => None
        | S f => let (symm', new') := fold_left (ftimes sum) new (symm, []) in fclosure sum f total symm' new'
        end
      else Some symm
  end.
(** symmetry.py:82-96; the assertion in line 95. *)
Definition foperations (sum : R -> R -> R -> R -> R) (gens : list fop) (total : nat) : res (list fop) :=
  match fclosure sum (S total) total gens gens with
  | None => Err RuntimeError
  | Some l => if Nat.eqb (List.length l) total then Ok l else Err AssertionError
  end.

(** np.round(x, n) with n decimals, [d] = 10^n: scaled, rounded to an integer (half to even), scaled back. *)
Definition round_dec (d : R) (x : R) : R := rnd (IZR (ZnearestE (rnd (x * d))) / d).
(** symmetry.py:236-246, the text of a translation. *)
Definition ftranslation_str (t : R) : string :=
  if Req_EM_T t 0 then EmptyString
  else if Req_EM_T (round_dec 10 (rnd (1 / t))) (3 / 2) then "2/3"%string
  else if Req_EM_T t (3 / 4) then "3/4"%string
  else if Req_EM_T (round_dec 1000 t) (rnd (833 / 1000)) then "5/6"%string
  else ("1/" ++ str_of_int (ZnearestE (rnd (1 / t))))%string.
(** symmetry.py:230-254, one row. *)
Definition fcomponent_str (r : Z * Z * Z) (t : R) : res string :=
  let '(a, b, c) := r in
  bind (term_str a "x") (fun x => bind (term_str b "y") (fun y => bind (term_str c "z") (fun z =>
  let tr := ftranslation_str t in
  let element := (x ++ y ++ z ++ (if String.eqb tr EmptyString then EmptyString else "+" ++ tr))%string in
  Ok (match element with String "+"%char r => r | _ => element end)))).
(** symmetry.py:221-258. *)
Definition fstr_of_op (f : fop) : res string :=
  let '(r, r', r'') := f_rot f in
  bind (fcomponent_str r (f1 f)) (fun a => bind (fcomponent_str r' (f2 f)) (fun b => bind (fcomponent_str r'' (f3 f)) (fun c => Ok (a ++ "," ++ b ++ "," ++ c)%string))).
Definition fget_str_from_generator (l : list fop) : res (list string) := map_res fstr_of_op l.

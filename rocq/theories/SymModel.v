(** Symmetry operations and space groups: /repo/neutronpy/crystal/symmetry.py.

    Rotation parts hold integers, translation parts exact rationals; the 1e-15 comparisons of the code
    become equality.  numpy arrays of shape (4, 4) whose last row is (0, 0, 0, 1) become records. *)
From Coq Require Import String Ascii List ZArith QArith Qround Bool DecimalString.
From Verif Require Import Base SymData.
Import ListNotations.
Local Open Scope string_scope.
Local Open Scope Z_scope.

Record op := mkOp { r11 : Z; r12 : Z; r13 : Z; r21 : Z; r22 : Z; r23 : Z; r31 : Z; r32 : Z; r33 : Z;
                    t1 : Q; t2 : Q; t3 : Q }.

Definition idop : op := mkOp 1 0 0 0 1 0 0 0 1 0 0 0.

(** np.dot of a row of integers with a column of rationals. *)
Definition rowdot (a b c : Z) (x y z : Q) : Q := inject_Z a * x + inject_Z b * y + inject_Z c * z.

(** One 4 x 4 product of symmetry.py:87, np.einsum('ijk,kl', symm_ops, g). *)
Definition mulop (a b : op) : op :=
  mkOp (r11 a * r11 b + r12 a * r21 b + r13 a * r31 b) (r11 a * r12 b + r12 a * r22 b + r13 a * r32 b) (r11 a * r13 b + r12 a * r23 b + r13 a * r33 b)
       (r21 a * r11 b + r22 a * r21 b + r23 a * r31 b) (r21 a * r12 b + r22 a * r22 b + r23 a * r32 b) (r21 a * r13 b + r22 a * r23 b + r23 a * r33 b)
       (r31 a * r11 b + r32 a * r21 b + r33 a * r31 b) (r31 a * r12 b + r32 a * r22 b + r33 a * r32 b) (r31 a * r13 b + r32 a * r23 b + r33 a * r33 b)
       (rowdot (r11 a) (r12 a) (r13 a) (t1 b) (t2 b) (t3 b) + t1 a)
       (rowdot (r21 a) (r22 a) (r23 a) (t1 b) (t2 b) (t3 b) + t2 a)
       (rowdot (r31 a) (r32 a) (r33 a) (t1 b) (t2 b) (t3 b) + t3 a).

(** np.mod(x, 1), in lowest terms. *)
Definition mod1 (x : Q) : Q := Qred (x - inject_Z (Qfloor x)).
(** symmetry.py:89-90.  Line 90, which maps a translation that rounds to 1 to 0, has nothing to do in
    exact arithmetic. *)
Definition reduce (o : op) : op :=
  mkOp (r11 o) (r12 o) (r13 o) (r21 o) (r22 o) (r23 o) (r31 o) (r32 o) (r33 o) (mod1 (t1 o)) (mod1 (t2 o)) (mod1 (t3 o)).

(** symmetry.py:91, entrywise comparison. *)
Definition rot_eqb (a b : op) : bool :=
  (r11 a =? r11 b) && (r12 a =? r12 b) && (r13 a =? r13 b) &&
  (r21 a =? r21 b) && (r22 a =? r22 b) && (r23 a =? r23 b) &&
  (r31 a =? r31 b) && (r32 a =? r32 b) && (r33 a =? r33 b).
Definition op_eqb (a b : op) : bool :=
  rot_eqb a b && Qeq_bool (t1 a) (t1 b) && Qeq_bool (t2 a) (t2 b) && Qeq_bool (t3 a) (t3 b).
Definition op_in (o : op) (l : list op) : bool := existsb (op_eqb o) l.

(** symmetry.py:88-93, one tested product: (operations so far, new ones of this round). *)
Definition add_op (st : list op * list op) (o : op) : list op * list op :=
  let o := reduce o in
  if op_in o (fst st) then st else ((fst st ++ [o])%list, (snd st ++ [o])%list).
(** symmetry.py:86-93, all operations so far times one new operation. *)
Definition times (st : list op * list op) (g : op) : list op * list op :=
  fold_left add_op (map (fun s => mulop s g) (fst st)) st.
(** symmetry.py:84-94, the while loop; [None] would be exhausted fuel (shown not to happen). *)
Fixpoint closure (fuel : nat) (total : nat) (symm new : list op) : option (list op) :=
  match new with
  | [] => Some symm
  | _ =>
      if Nat.ltb (length symm) total then
        match fuel with
        | O => None
        | S f => let (symm', new') := fold_left times new (symm, []) in closure f total symm' new'
        end
      else Some symm
  end.
(** symmetry.py:82-96; the assertion in line 95. *)
Definition operations (gens : list op) (total : nat) : res (list op) :=
  match closure (S total) total gens gens with
  | None => Err RuntimeError
  | Some l => if Nat.eqb (length l) total then Ok l else Err AssertionError
  end.

(** str.split(c). *)
Fixpoint split_acc (c : ascii) (s : string) (acc : string) : list string :=
  match s with
  | EmptyString => [acc]
  | String d r => if Ascii.eqb c d then acc :: split_acc c r EmptyString else split_acc c r (acc ++ String d EmptyString)
  end.
Definition split (c : ascii) (s : string) : list string := split_acc c s EmptyString.
(** `p in s`. *)
Fixpoint contains (p s : string) : bool :=
  prefix p s || match s with EmptyString => false | String _ r => contains p r end.

(** eval(text.replace('/', './')) for text made of digits, or digits/digits: symmetry.py:180.  Python's
    eval accepts every expression; here a text starting with a letter is an unknown name (NameError)
    and any other text is outside the model and raises. *)
Definition digit (a : ascii) : option Z :=
  let n := Z.of_nat (nat_of_ascii a) in if (48 <=? n) && (n <=? 57) then Some (n - 48) else None.
Fixpoint digits_acc (s : string) (acc : Z) : option Z :=
  match s with
  | EmptyString => Some acc
  | String a r => match digit a with Some d => digits_acc r (10 * acc + d) | None => None end
  end.
Definition digits (s : string) : option Z := match s with EmptyString => None | _ => digits_acc s 0 end.
Definition letter (s : string) : bool :=
  match s with
  | String a _ => let n := Z.of_nat (nat_of_ascii a) in ((97 <=? n) && (n <=? 122)) || ((65 <=? n) && (n <=? 90))
  | EmptyString => false
  end.
Definition eval (s : string) : res Q :=
  if letter s then Err NameError else
  match split "/" s with
  | [a] => match digits a with Some n => Ok (inject_Z n) | None => Err GenericException end
  | [a; b] =>
      match digits a, digits b with
      | Some n, Some 0%Z => Err ZeroDivisionError
      | Some n, Some d => Ok (Qred (inject_Z n / inject_Z d))
      | _, _ => Err GenericException
      end
  | _ => Err GenericException
  end.

(** symmetry.py:182-195, one column of the rotation. *)
Definition coefficient (axis : string) (s : string) : Z :=
  if contains ("-" ++ axis) s then -1 else if contains axis s then 1 else 0.
(** symmetry.py:176-195, one component: row of the rotation and translation. *)
Definition parse_component (comp : string) : res (Z * Z * Z * Q) :=
  let elements := split "+" comp in
  let head := hd EmptyString elements in
  match (match elements with _ :: _ :: _ => eval (last elements EmptyString) | _ => Ok 0%Q end) with
  | Err e => Err e
  | Ok t => Ok (coefficient "x" head, coefficient "y" head, coefficient "z" head, t)
  end.
(** symmetry.py:168-202, one generator; missing components leave zero rows. *)
Definition parse_op (s : string) : res op :=
  let components := split "," s in
  if Nat.ltb 3 (length components) then Err ValueError
  else match map_res parse_component components with
       | Err e => Err e
       | Ok rows =>
           let row n := nth n rows (0, 0, 0, 0%Q) in
           let '(a, b, c, t) := row 0%nat in let '(a', b', c', t') := row 1%nat in let '(a'', b'', c'', t'') := row 2%nat in
           Ok (mkOp a b c a' b' c' a'' b'' c'' t t' t'')
       end.
(** symmetry.py:157-207. *)
Definition get_generator_from_str (l : list string) : res (list op) := map_res parse_op l.

(** numpy.round to an integer: half to even. *)
Definition round_half_even (x : Q) : Z :=
  let f := Qfloor x in
  match ((x - inject_Z f) ?= (1 # 2))%Q with
  | Lt => f
  | Gt => f + 1
  | Eq => if Z.even f then f else f + 1
  end.
(** np.round(x, n) with n decimals. *)
Definition round_to (n : positive) (x : Q) : Q := inject_Z (round_half_even (x * inject_Z (Zpos n))) / inject_Z (Zpos n).
(** str(int). *)
Definition str_of_int (z : Z) : string := NilZero.string_of_int (Z.to_int z).
(** symmetry.py:240-250, the translation text. *)
Definition translation_str (t : Q) : string :=
  if Qeq_bool t 0 then EmptyString
  else if Qeq_bool (round_to 10 (1 / t)) (3 # 2) then "2/3"
  else if Qeq_bool t (3 # 4) then "3/4"
  else if Qeq_bool (round_to 1000 t) (833 # 1000) then "5/6"
  else "1/" ++ str_of_int (round_half_even (1 / t)).
(** symmetry.py:237-238, signs[int(col)] + np.abs(int(col)) * sym; other entries raise KeyError. *)
Definition term_str (c : Z) (sym : string) : res string :=
  if c =? 0 then Ok EmptyString else if c =? 1 then Ok ("+" ++ sym) else if c =? -1 then Ok ("-" ++ sym) else Err KeyError.
(** symmetry.py:235-258, one row. *)
Definition component_str (a b c : Z) (t : Q) : res string :=
  bind (term_str a "x") (fun x => bind (term_str b "y") (fun y => bind (term_str c "z") (fun z =>
  let tr := translation_str t in
  let element := x ++ y ++ z ++ (if String.eqb tr EmptyString then EmptyString else "+" ++ tr) in
  Ok (match element with String "+" r => r | _ => element end)))).
(** symmetry.py:232-259. *)
Definition str_of_op (o : op) : res string :=
  bind (component_str (r11 o) (r12 o) (r13 o) (t1 o)) (fun a =>
  bind (component_str (r21 o) (r22 o) (r23 o) (t2 o)) (fun b =>
  bind (component_str (r31 o) (r32 o) (r33 o) (t3 o)) (fun c => Ok (a ++ "," ++ b ++ "," ++ c)))).
Definition get_str_from_generator (l : list op) : res (list string) := map_res str_of_op l.

(** The symbol argument of SpaceGroup: an int (or bool), a str, or something else. *)
Inductive symbol_arg := SInt (n : Z) | SStr (s : string) | SOther.

Definition by_key (k : string) : option entry := find (fun e => String.eqb (e_key e) k) table.
(** symmetry.py:32-44: the resulting _symbol.  The loops keep the last match; without a match the
    attribute keeps its previous value, if there is one ([old]). *)
Definition last_match (f : entry -> bool) (old : option string) : option string :=
  fold_left (fun acc e => if f e then Some (e_key e) else acc) table old.
Definition select (old : option string) (a : symbol_arg) : res (option string) :=
  match a with
  | SInt n => Ok (last_match (fun e => e_number e =? n) old)
  | SStr s =>
      match by_key s with
      | Some _ => Ok (Some s)
      | None => Ok (last_match (fun e => (String.eqb (e_hm e) s || String.eqb (e_full e) s)%bool) old)
      end
  | SOther => Err KeyError
  end.

(** A SpaceGroup object. *)
Record group := mkG { g_symbol : string; g_point_group : string; g_full_name : string; g_string_generators : list string;
  g_lattice_type : string; g_number : Z; g_hm : string; g_generators : list op; g_total : nat; g_ops : list op }.
(** symmetry.py:46-54. *)
Definition load (symbol : option string) : res group :=
  match symbol with
  | None => Err AttributeError
  | Some k =>
      match by_key k with
      | None => Err KeyError
      | Some e =>
          bind (get_generator_from_str (e_gens e)) (fun gens =>
          bind (operations gens (e_total e)) (fun ops =>
          Ok (mkG k (e_pg e) (e_full e) (e_gens e) (e_type e) (e_number e) (e_hm e) gens (e_total e) ops)))
      end
  end.
(** symmetry.py:32-54, construction. *)
Definition space_group (a : symbol_arg) : res group := bind (select None a) load.
(** symmetry.py:65-67, assignment to symbol: runs the constructor on the existing object. *)
Definition set_symbol (g : group) (a : symbol_arg) : res group := bind (select (Some (g_symbol g)) a) load.

(** symmetry.py:98-106. *)
Definition position := (Q * Q * Q)%type.
Definition apply (o : op) (p : position) : position :=
  let '(x, y, z) := p in
  (rowdot (r11 o) (r12 o) (r13 o) x y z + t1 o, rowdot (r21 o) (r22 o) (r23 o) x y z + t2 o, rowdot (r31 o) (r32 o) (r33 o) x y z + t3 o)%Q.
Definition symmetrize_position (g : group) (p : position) : list position := map (fun o => apply o p) (g_ops g).

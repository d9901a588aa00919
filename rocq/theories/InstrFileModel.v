(** Saving a triple-axis instrument as text and loading it: neutronpy/fileio/instrument.py. *)
From Coq Require Import String Ascii List Arith Bool.
From Verif Require Import Base TextModel.
Import ListNotations.
Local Open Scope string_scope.

(** Values of attributes; numbers are given by the text Python prints for them.  [Other]: None, True and False, by their text;
    [Lst] and [Arr]: a list and a one-dimensional array of numbers. *)
Inductive value := Num (s : string) | Text (s : string) | Other (s : string) | Lst (l : list string) | Arr (l : list string).

(** str of an array: integers are aligned right; floats are printed without the zero of .0, aligned at the point.  Simplifications: numpy
    rounds to 8 digits after the point, uses exponents for very large or small numbers and breaks lines after 75 characters. *)
Fixpoint int_part (s : string) : string := match s with EmptyString => EmptyString | String c r => if Ascii.eqb c "." then EmptyString else String c (int_part r) end.
Fixpoint frac_part (s : string) : string := match s with EmptyString => EmptyString | String c r => if Ascii.eqb c "." then s else frac_part r end.
Definition frac_word (s : string) : string := if String.eqb (frac_part s) ".0" then "." else frac_part s.
Definition maxlen (l : list string) : nat := fold_right (fun s n => Nat.max (String.length s) n) 0 l.
Definition arr_words (l : list string) : list string :=
  let w := maxlen (map int_part l) in
  let f := maxlen (map frac_word l) in
  map (fun s => repeat_char " " (w - String.length (int_part s)) ++ int_part s ++ frac_word s ++ repeat_char " " (f - String.length (frac_word s))) l.
(** str(value). *)
Definition text (v : value) : string :=
  match v with
  | Num s | Text s | Other s => s
  | Lst l => "[" ++ join ", " l ++ "]"
  | Arr l => "[" ++ join " " (arr_words l) ++ "]"
  end.

(** An instrument: the value of each attribute, those of the instrument itself under the name "", and which objects it has.
    Simplifications: every attribute can be set; setting tau renews the spacing d, which is not kept here. *)
Record inst := mkInst { val : string -> string -> option value; sub : string -> bool }.
Definition put (I : inst) (g k : string) (v : value) : inst :=
  mkInst (fun g' k' => if String.eqb g' g && String.eqb k' k then Some v else val I g' k') (sub I).

(** instrument.py:532-541 and the order of the groups in 550-552. *)
Definition saved : list (string * list string) :=
  [("", ["efixed"; "arms"; "hcol"; "vcol"; "method"; "moncor"; "infin"]);
   ("mono", ["tau"; "height"; "width"; "depth"; "direct"; "mosaic"; "vmosaic"; "rh"; "rv"]);
   ("ana", ["tau"; "height"; "width"; "depth"; "direct"; "mosaic"; "vmosaic"; "rh"; "rv"; "horifoc"; "thickness"; "Q"]);
   ("detector", ["height"; "width"; "depth"]);
   ("guide", ["height"; "width"]);
   ("sample", ["a"; "b"; "c"; "alpha"; "beta"; "gamma"; "u"; "v"; "mosaic"; "vmosaic"; "height"; "width"; "depth"; "direct"]);
   ("Smooth", ["X"; "Y"; "Z"; "E"])].
Definition saved_names : list (string * string) := flat_map (fun '(g, l) => map (pair g) l) saved.
(** instrument.py:553-567: the lines, without the newline; a missing attribute or object is left out. *)
Definition left_of (g k : string) : string := "instrument." ++ (match g with "" => k | _ => g ++ "." ++ k end) ++ " = ".
Definition entries (I : inst) : list (string * string * value) :=
  flat_map (fun '(g, k) => match val I g k with Some v => [(g, k, v)] | None => [] end) saved_names.
Definition content (I : inst) : string := String.concat "" (map (fun '(g, k, v) => line_of (left_of g k ++ text v)) (entries I)).

(** instrument.py:396-403. *)
Definition parse_line (line : string) : res (list string * string) :=
  match split "=" (remove "instrument." line) with
  | l :: r :: _ => Ok (map strip (split "." l), strip r)
  | _ => Err IndexError
  end.
(** instrument.py:410-417. *)
Definition convert (right : string) : res value :=
  if contains "[" right then bind (map_res float (split " " (remove "[" (remove "]" right)))) (fun l => Ok (Lst l))
  else match float right with Ok n => Ok (Num n) | Err _ => Ok (Text right) end.
(** crystal/sample.py:174-190: the setters of u and v make arrays. *)
Definition attr_set (g k : string) (v : value) : value :=
  if String.eqb g "sample" && (String.eqb k "u" || String.eqb k "v") then match v with Lst l => Arr l | _ => v end else v.
(** instrument.py:419-424. *)
Definition assign (I : inst) (a : list string) (v : value) : res inst :=
  match a with
  | [k] => Ok (put I "" k v)
  | g :: k :: _ => if sub I g then Ok (put I g k (attr_set g k v)) else Err AttributeError
  | [] => Err IndexError
  end.
Fixpoint assign_all (I : inst) (l : list (list string * string)) : res inst :=
  match l with
  | [] => Ok I
  | (a, r) :: l => bind (convert r) (fun v => bind (assign I a v) (fun I => assign_all I l))
  end.
(** Instrument(): instrument/tas_instrument.py:96-123, and the constructors of Monochromator, Analyzer and Sample.  The name attributes of
    detector, monitor and guide, and the sample's shape_type, are left out. *)
Definition table (l : list (string * string * value)) (g k : string) : option value :=
  match find (fun '(g', k', _) => String.eqb g g' && String.eqb k k') l with Some (_, v) => Some v | None => None end.
Definition default : inst :=
  mkInst (table [("", "efixed", Num "14.7"); ("", "hcol", Arr ["40"; "40"; "40"; "40"]); ("", "vcol", Arr ["120"; "120"; "120"; "120"]);
                 ("mono", "tau", Text "PG(002)"); ("mono", "mosaic", Num "25"); ("mono", "direct", Num "-1");
                 ("ana", "tau", Text "PG(002)"); ("ana", "mosaic", Num "25"); ("ana", "direct", Num "-1"); ("ana", "horifoc", Num "-1");
                 ("sample", "a", Num "6"); ("sample", "b", Num "7"); ("sample", "c", Num "8"); ("sample", "alpha", Num "90");
                 ("sample", "beta", Num "90"); ("sample", "gamma", Num "90"); ("sample", "u", Arr ["1"; "0"; "0"]);
                 ("sample", "v", Arr ["0"; "1"; "0"]); ("sample", "direct", Num "1")])
         (fun g => mem g ["mono"; "ana"; "sample"; "detector"; "monitor"; "guide"]).
(** instrument.py:394-426. *)
Definition load (s : string) : res inst := bind (map_res parse_line (lines s)) (assign_all default).

(** Files by name. *)
Definition files := string -> option string.
Definition write (f : files) (name s : string) : files := fun n => if String.eqb n name then Some s else f n.
(** instrument.py:543-548, 569-570: modes w+ and r+.  Opening a missing file with r+ raises; otherwise the text is written over the beginning. *)
Definition save_ascii (I : inst) (name : string) (overwrite : bool) (f : files) : files * res unit :=
  let n := name ++ ".instr" in
  if overwrite then (write f n (content I), Ok tt)
  else match f n with
       | None => (f, Err OSError)
       | Some old => (write f n (content I ++ skip_chars (String.length (content I)) old), Ok tt)
       end.
Definition load_ascii (name : string) (f : files) : res inst := match f name with None => Err OSError | Some s => load s end.

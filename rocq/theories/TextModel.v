(** Python's string methods used by the file code, for ASCII text. *)
From Coq Require Import String Ascii List Arith Bool.
From Verif Require Import Base.
Import ListNotations.
Local Open Scope string_scope.

Definition newline : ascii := "010".
Definition tab : ascii := "009".
Definition line_of (s : string) : string := s ++ String newline EmptyString.
(** `c in s` for a character, `p in s` for a text. *)
Fixpoint has (c : ascii) (s : string) : bool := match s with EmptyString => false | String d r => Ascii.eqb c d || has c r end.
Fixpoint contains (p s : string) : bool := prefix p s || match s with EmptyString => false | String _ r => contains p r end.
(** str.lower and str.upper. *)
Definition lower_ascii (c : ascii) : ascii := let n := nat_of_ascii c in if Nat.leb 65 n && Nat.leb n 90 then ascii_of_nat (n + 32) else c.
Definition upper_ascii (c : ascii) : ascii := let n := nat_of_ascii c in if Nat.leb 97 n && Nat.leb n 122 then ascii_of_nat (n - 32) else c.
Fixpoint mapc (f : ascii -> ascii) (s : string) : string := match s with EmptyString => EmptyString | String c r => String (f c) (mapc f r) end.
Definition lower := mapc lower_ascii.
Definition upper := mapc upper_ascii.
(** s[-n:], for n > 0: the whole text if it is shorter. *)
Definition last_chars (n : nat) (s : string) : string := substring (String.length s - n) n s.
(** s[n:]. *)
Fixpoint skip_chars (n : nat) (s : string) : string := match n, s with S k, String _ r => skip_chars k r | _, _ => s end.
(** s.split(c) for a character. *)
Fixpoint split (c : ascii) (s : string) : list string :=
  match s with
  | EmptyString => [EmptyString]
  | String d r => if Ascii.eqb c d then EmptyString :: split c r else match split c r with w :: ws => String d w :: ws | [] => [String d EmptyString] end
  end.
(** Iterating over an open file; the newline at the end of each line is left out.  Newlines are line feeds. *)
Fixpoint lines (s : string) : list string :=
  match s with
  | EmptyString => []
  | String d r => if Ascii.eqb newline d then EmptyString :: lines r else match lines r with w :: ws => String d w :: ws | [] => [String d EmptyString] end
  end.
(** str.isspace for ASCII: tab to carriage return, the four separators 28 to 31, space. *)
Definition space (c : ascii) : bool := let n := nat_of_ascii c in (Nat.leb 9 n && Nat.leb n 13) || (Nat.leb 28 n && Nat.leb n 32).
Fixpoint lstrip (s : string) : string := match s with EmptyString => EmptyString | String c r => if space c then lstrip r else s end.
Fixpoint rstrip (s : string) : string :=
  match s with EmptyString => EmptyString | String c r => match rstrip r with EmptyString => if space c then EmptyString else String c EmptyString | t => String c t end end.
Definition strip (s : string) : string := rstrip (lstrip s).
(** s.split() without argument. *)
Fixpoint words_acc (s acc : string) : list string :=
  match s with
  | EmptyString => match acc with EmptyString => [] | _ => [acc] end
  | String c r => if space c then match acc with EmptyString => words_acc r EmptyString | _ => acc :: words_acc r EmptyString end
                  else words_acc r (acc ++ String c EmptyString)
  end.
Definition words (s : string) : list string := words_acc s EmptyString.
(** s.replace(w, '') for a non-empty text w. *)
Fixpoint remove_from (w s : string) (skip : nat) : string :=
  match s with
  | EmptyString => EmptyString
  | String d r => match skip with
                  | S k => remove_from w r k
                  | O => if prefix w s then remove_from w r (String.length w - 1) else String d (remove_from w r 0)
                  end
  end.
Definition remove (w s : string) : string := remove_from w s 0.
(** c.join(l). *)
Fixpoint join (c : string) (l : list string) : string := match l with [] => EmptyString | [s] => s | s :: r => s ++ c ++ join c r end.
Fixpoint repeat_char (c : ascii) (n : nat) : string := match n with O => EmptyString | S k => String c (repeat_char c k) end.

(** float(s): sign, digits (single underscores between digits), point, digits, exponent; or inf, infinity, nan. *)
Definition digit (c : ascii) : bool := let n := nat_of_ascii c in Nat.leb 48 n && Nat.leb n 57.
Inductive fstate := FStart | FSign | FInt | FIntU | FDot | FPoint | FFrac | FFracU | FExp | FExpSign | FExpD | FExpU | FBad.
Definition fstep (q : fstate) (c : ascii) : fstate :=
  let d := digit c in
  let u := Ascii.eqb c "_" in
  let dot := Ascii.eqb c "." in
  let e := Ascii.eqb c "e" || Ascii.eqb c "E" in
  let sign := Ascii.eqb c "+" || Ascii.eqb c "-" in
  match q with
  | FStart => if d then FInt else if dot then FDot else if sign then FSign else FBad
  | FSign => if d then FInt else if dot then FDot else FBad
  | FInt => if d then FInt else if u then FIntU else if dot then FPoint else if e then FExp else FBad
  | FIntU => if d then FInt else FBad
  | FDot => if d then FFrac else FBad
  | FPoint => if d then FFrac else if e then FExp else FBad
  | FFrac => if d then FFrac else if u then FFracU else if e then FExp else FBad
  | FFracU => if d then FFrac else FBad
  | FExp => if d then FExpD else if sign then FExpSign else FBad
  | FExpSign => if d then FExpD else FBad
  | FExpD => if d then FExpD else if u then FExpU else FBad
  | FExpU => if d then FExpD else FBad
  | FBad => FBad
  end.
Fixpoint frun (q : fstate) (s : string) : fstate := match s with EmptyString => q | String c r => frun (fstep q c) r end.
Definition unsigned (s : string) : string := match s with String c r => if Ascii.eqb c "+" || Ascii.eqb c "-" then r else s | _ => s end.
Definition special (s : string) : bool := mem (lower (unsigned s)) ["inf"; "infinity"; "nan"].
Definition is_float (s : string) : bool := special s || match frun FStart s with FInt | FPoint | FFrac | FExpD => true | _ => false end.
(** The shortest text of the number a text stands for, as far as needed: 25 and 25. are 25.0.  Simplification: integers of 10^16 and more,
    which Python prints with an exponent, and texts Python itself would not print (+1, 1_0, 01, 1.50) are not rewritten. *)
Fixpoint all_digits (s : string) : bool := match s with EmptyString => true | String c r => digit c && all_digits r end.
Definition refloat (s : string) : string :=
  if negb (String.eqb (unsigned s) "") && all_digits (unsigned s) then s ++ ".0" else if String.eqb (last_chars 1 s) "." then s ++ "0" else s.
Definition float (s : string) : res string := let t := strip s in if is_float t then Ok (refloat t) else Err ValueError.

(** Files of DCS_MSLICE: fileio/loaders/dcs_mslice.py.  A file is the list of its lines; [num] and [int]: the number a text stands for.
    Simplification: sizes are not negative, and there are two of them (other first lines give IndexError or ValueError). *)
From Coq Require Import String Ascii List Arith Bool QArith.
From Verif Require Import Base TextModel LoadersModel.
Import ListNotations.
Local Open Scope string_scope.

(** An array of numpy: its shape and its numbers, row by row. *)
Record arr := mkArr { dims : list nat; vals : list Q }.
Definition size (a : arr) : nat := List.length (vals a).
(** np.array(...) of a list of lists, .astype(float): rows of different lengths cannot be converted. *)
Definition floats (num : string -> option Q) (l : list string) : res (list Q) := map_res (float num) l.
Definition array2 (num : string -> option Q) (rs : list (list string)) : res arr :=
  match rs with
  | [] => Ok (mkArr [0%nat] [])
  | r :: _ => if forallb (fun s => Nat.eqb (List.length s) (List.length r)) rs
              then bind (floats num (List.concat rs)) (fun v => Ok (mkArr [List.length rs; List.length r] v)) else Err ValueError
  end.
Definition squeeze (a : arr) : arr := mkArr (filter (fun n => negb (Nat.eqb n 1)) (dims a)) (vals a).
(** a.shape[0]: a number has none. *)
Definition len0 (a : arr) : res nat := match dims a with [] => Err IndexError | n :: _ => Ok n end.
(** np.meshgrid(x, y)[0].flatten(). *)
Definition mesh_x (x : list Q) (ny : nat) : list Q := List.concat (repeat x ny).
(** l[a:b]. *)
Definition slice {A : Type} (a b : nat) (l : list A) : list A := firstn (b - a) (skipn a l).

(** The dataset: the columns of _data and _err. *)
Record grid := mkGrid { intensity : list Q; error : list Q; xcol : list Q; ycol : option (list Q); monitor : list Q; time : list Q; err : arr }.
Definition ones (n : nat) : list Q := repeat 1%Q n.
Definition dims_eqb (a b : list nat) : bool := if list_eq_dec Nat.eq_dec a b then true else false.

(** dcs_mslice.py:31-48.  A file without lines is an empty file. *)
Definition subtype (name : string) (file : list string) : res string :=
  let first := nth 0 file "" in
  let second := nth 1 file "" in
  let n := List.length (words first) in
  if String.eqb (last_chars 4 name) "iexy" || Nat.eqb n 4 then Ok "iexy"
  else if String.eqb (last_chars 4 name) "xyie" || (Nat.eqb n 2 && Nat.leb (List.length file) 1) then Ok "xyie"
  else if String.eqb (last_chars 3 name) "spe" || (Nat.eqb n 2 && contains "###" second) then Ok "spe"
  else if String.eqb (last_chars 3 name) "xye" || Nat.eqb n 3 then Ok "xye"
  else Err OSError.

Definition sizes (int : string -> option nat) (l : list string) : res (nat * nat) :=
  bind (map_res (fun s => match int s with Some n => Ok n | None => Err ValueError end) l) (fun v =>
  match v with [a; b] => Ok (a, b) | _ :: _ :: _ => Err ValueError | _ => Err IndexError end).

(** dcs_mslice.py:108-131. *)
Definition load_xyie (num : string -> option Q) (int : string -> option nat) (file : list string) : res grid :=
  let data := map words file in
  match data with
  | [] => Err IndexError
  | d0 :: _ =>
    bind (sizes int d0) (fun '(nx, ny) =>
    bind (array2 num (slice 2 (2 + nx) data)) (fun x =>
    bind (array2 num (slice (3 + nx) (3 + nx + ny) data)) (fun y =>
    bind (array2 num (slice (4 + (nx + ny)) (4 + (nx + ny) + ny) data)) (fun i =>
    bind (array2 num (slice (5 + (nx + ny) + ny) (5 + (nx + ny) + 2 * ny) data)) (fun e =>
    let x := squeeze x in
    let y := squeeze y in
    bind (len0 x) (fun lx => if negb (Nat.eqb lx nx) then Err ValueError else
    bind (len0 y) (fun ly => if Nat.eqb ly ny && dims_eqb (List.rev (dims i)) [nx; ny] && dims_eqb (List.rev (dims e)) [nx; ny]
      then let X := mesh_x (vals x) (size y) in
           Ok (mkGrid (vals i) (vals e) X (Some X) (ones (hd 0%nat (dims i))) (ones (hd 0%nat (dims i))) e)
      else Err ValueError)))))))
  end.

(** dcs_mslice.py:58-61: lines with three hashes are marks; in the others a minus is set apart, unless it follows the letter e. *)
Fixpoint dashes (e : bool) (s : string) : string :=
  match s with
  | EmptyString => EmptyString
  | String c r => if Ascii.eqb c "-" && negb e then String " " (String c (dashes false r)) else String c (dashes (Ascii.eqb c "e") r)
  end.
Inductive line := Mark | Vals (l : list string).
Definition read_line (s : string) : line := if contains "###" s then Mark else Vals (words (dashes false s)).
(** dcs_mslice.py:73-78 and 80-85: collecting values until a mark; [enough n]: with n values collected stop before the line.  The values and
    the number of the line after the one where the loop stopped, if it did. *)
Fixpoint collect (enough : nat -> bool) (n : nat) (ls : list line) (acc : list string) : list string * option nat :=
  match ls with
  | [] => (acc, None)
  | Mark :: _ => (acc, Some (S n))
  | Vals v :: r => if enough (List.length acc) then (acc, Some (S n)) else collect enough (S n) r (List.app acc v)
  end.
(** np.squeeze(np.array(l).astype(float))[:n]: one value becomes a number, which has no part. *)
Definition vector (num : string -> option Q) (l : list string) (n : nat) : res (list Q) :=
  bind (floats num l) (fun v => match v with [_] => Err IndexError | _ => Ok (firstn n v) end).
(** dcs_mslice.py:92-101: the blocks. *)
Fixpoint blocks (num : string -> option Q) (ny count line_num : nat) (data : list line) : res (list (list Q)) :=
  match count with
  | O => Ok []
  | S k => let '(b, stop) := collect (fun _ => false) line_num (skipn line_num data) [] in
           bind (vector num b ny) (fun v =>
           bind (blocks num ny k (match stop with Some m => m | None => line_num end) data) (fun r => Ok (v :: r)))
  end.
Fixpoint evens {A : Type} (l : list A) : list A := match l with [] => [] | [a] => [a] | a :: _ :: r => a :: evens r end.
Definition odds {A : Type} (l : list A) : list A := evens (tl l).
(** np.array(l).T for vectors: they have the same length (older versions of numpy make an array of arrays of others), shape and rows. *)
Definition transposed (l : list (list Q)) : res arr :=
  match l with
  | [] => Ok (mkArr [0%nat] [])
  | v :: _ => if forallb (fun w => Nat.eqb (List.length w) (List.length v)) l
              then Ok (mkArr [List.length v; List.length l] (List.concat (map (fun i => map (fun w => nth i w 0%Q) l) (seq 0 (List.length v))))) else Err ValueError
  end.
(** dcs_mslice.py:56-112.  UnboundLocalError: no mark after the x values. *)
Definition load_spe (num : string -> option Q) (int : string -> option nat) (file : list string) : res grid :=
  let data := map read_line file in
  match data with
  | [] => Err IndexError
  | Mark :: _ => Err ValueError
  | Vals d0 :: _ =>
    bind (sizes int d0) (fun '(nx, ny) =>
    let '(x, stop) := collect (fun n => Nat.leb nx n) 2 (skipn 2 data) [] in
    match stop with
    | None => Err UnboundLocalError
    | Some line_num =>
      let '(y, stop) := collect (fun _ => Nat.leb ny (List.length x)) line_num (skipn line_num data) [] in
      let line_num := match stop with Some m => m | None => line_num end in
      bind (vector num x nx) (fun x =>
      bind (vector num y ny) (fun y =>
      let X := mesh_x x (List.length y) in
      bind (blocks num ny (nx * 2) line_num data) (fun bs =>
      bind (transposed (evens bs)) (fun i =>
      bind (transposed (odds bs)) (fun e =>
      Ok (mkGrid (vals i) (vals e) X (Some X) (ones (hd 0%nat (dims i))) (ones (hd 0%nat (dims i))) e))))))
    end)
  end.

(** dcs_mslice.py:50-54 and 133-137: loadtxt, with exactly four or three columns; numbers have no length. *)
Definition loadtxt (num : string -> option Q) (n : nat) (file : list string) : res (list (list Q)) :=
  bind (rows None 0 0 file) (fun rs => bind (array2 num rs) (fun _ =>
  match rs with
  | [] => Err ValueError
  | r :: t => if negb (Nat.eqb (List.length r) n) then (if Nat.eqb (List.length r) 1 && Nat.eqb (List.length rs) n then Err TypeError else Err ValueError)
              else match t with [] => Err TypeError
                   | _ => map_res (fun j => floats num (map (fun s => nth j s "") rs)) (seq 0 n) end
  end)).
Definition load_iexy (num : string -> option Q) (file : list string) : res grid :=
  bind (loadtxt num 4 file) (fun c => match c with
  | [i; e; x; y] => Ok (mkGrid i e x (Some y) (ones (List.length i)) (ones (List.length i)) (mkArr [List.length e] e))
  | _ => Err ValueError end).
Definition load_xye (num : string -> option Q) (file : list string) : res grid :=
  bind (loadtxt num 3 file) (fun c => match c with
  | [x; y; e] => Ok (mkGrid y e x None (ones (List.length y)) (ones (List.length y)) (mkArr [List.length e] e))
  | _ => Err ValueError end).

(** Dividing arrays: shapes match from the end, where they are equal or one of them is 1. *)
Fixpoint broadcast (a b : list nat) : option (list nat) :=
  match a, b with
  | [], s | s, [] => Some s
  | m :: a, n :: b => match broadcast a b with
                      | Some s => if Nat.eqb m n then Some (m :: s) else if Nat.eqb m 1 then Some (n :: s) else if Nat.eqb n 1 then Some (m :: s) else None
                      | None => None end
  end.
(** data/data.py:359-408: the properties intensity and error of the dataset, with time_norm False.  The monitor is one everywhere and m0 becomes
    its largest value, so that the numbers stay the same when the shapes are equal; nanmax of no numbers raises ValueError.
    Simplification: the numbers of an array that is repeated are left out (None). *)
Definition over_monitor (a : arr) (g : grid) : res (list nat * option (list Q)) :=
  match monitor g with
  | [] => Err ValueError
  | m => match broadcast (List.rev (dims a)) [List.length m] with
         | Some s => Ok (List.rev s, if dims_eqb (List.rev s) (dims a) then Some (vals a) else None)
         | None => Err ValueError
         end
  end.
Definition get_intensity (g : grid) := over_monitor (mkArr [List.length (intensity g)] (intensity g)) g.
Definition get_error (g : grid) := over_monitor (err g) g.

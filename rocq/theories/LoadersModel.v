(** Reading columns from the text files of other programs: fileio/loaders/icp.py, mad.py, ice.py, spice.py and grasp.py (ascii).
    A file is the list of its lines.  [num]: the number a text stands for, None if there is none; cells of numpy arrays are numbers or not
    a number (None).  Simplification: texts such as nan, which are read as "not a number", are left out of [num]. *)
From Coq Require Import String Ascii List Arith Bool QArith.
From Verif Require Import Base TextModel.
Import ListNotations.
Local Open Scope string_scope.

Inductive col := Arr (l : list (option Q)) | Num (q : option Q).
Definition dict := list (string * string).
(** What load leaves in the dataset: the columns (_data), data_keys, Q_keys, file_header (None: no such attribute) and _err (likewise).
    The loaders of ICP, MAD and ICE set _file_header, to an empty list, and no file_header. *)
Record loaded := mkLoaded { cols : list (string * col); dks : dict; qks : dict; header : option (list string); err : option col }.

(** d[k] = c and del d[k] for an OrderedDict. *)
Fixpoint put (k : string) (c : col) (l : list (string * col)) : list (string * col) :=
  match l with [] => [(k, c)] | (k', c') :: r => if String.eqb k' k then (k', c) :: r else (k', c') :: put k c r end.
Fixpoint get {A : Type} (k : string) (l : list (string * A)) : option A := match l with [] => None | (k', c) :: r => if String.eqb k' k then Some c else get k r end.
Fixpoint del (k : string) (l : list (string * col)) : list (string * col) :=
  match l with [] => [] | (k', c) :: r => if String.eqb k' k then r else (k', c) :: del k r end.
(** for head, col in zip(col_headers, args): data[head] = col. *)
Definition assign (names : list string) (cs : list col) : list (string * col) := fold_left (fun l '(k, c) => put k c l) (List.combine names cs) [].

(** numpy's line splitter: the text before a hash, split at blanks. *)
Definition cells (l : string) : list string := words (hd "" (split "#" l)).
Definition blank (l : string) : bool := match cells l with [] => true | _ => false end.
Fixpoint drop_blank (ls : list string) : list string := match ls with [] => [] | l :: r => if blank l then drop_blank r else ls end.
(** genfromtxt: [take] picks the cells of a line (None: the line is invalid).  The numbers of the invalid lines start with 1 at the first
    line that is not blank; blank lines count but are skipped. *)
Fixpoint scan (take : list string -> option (list string)) (n : nat) (ls : list string) : list (list string) * list nat :=
  match ls with
  | [] => ([], [])
  | l :: r => let '(rows, bad) := scan take (S n) r in
              if blank l then (rows, bad) else match take (cells l) with Some c => (c :: rows, bad) | None => (rows, n :: bad) end
  end.
(** Without usecols: as many cells as in the first line.  With usecols = (0, ..., m-1): the first m cells. *)
Definition take_all (n : nat) (c : list string) : option (list string) := if Nat.eqb (List.length c) n then Some c else None.
Definition take_first (m : nat) (c : list string) : option (list string) := if Nat.leb m (List.length c) then Some (firstn m c) else None.
(** The rows.  With skip_footer invalid lines numbered above the number of valid lines are forgiven and count as skipped. *)
Definition rows (usecols : option nat) (skip_header skip_footer : nat) (file : list string) : res (list (list string)) :=
  let ls := drop_blank (skipn skip_header file) in
  let take := match usecols with Some m => take_first m | None => take_all (List.length (cells (hd "" ls))) end in
  let '(good, bad) := scan take 1 ls in
  let '(bad, foot) := if Nat.eqb skip_footer 0 then (bad, skip_footer)
                      else (filter (fun k => Nat.leb k (List.length good)) bad, (skip_footer - List.length (filter (fun k => negb (Nat.leb k (List.length good))) bad))%nat) in
  match bad with
  | _ :: _ => Err ValueError
  | [] => Ok (firstn (List.length good - foot) good)
  end.
(** The transposed array, without dimensions of length one, as the items of the loop over it; a single number has none. *)
Definition columns (num : string -> option Q) (rs : list (list string)) : res (list col) :=
  match rs with
  | [] => Ok []
  | [[x]] => Err TypeError
  | [r] => Ok (map (fun x => Num (num x)) r)
  | r :: _ => if Nat.eqb (List.length r) 1 then Ok (map (fun s => Num (num (hd "" s))) rs)
              else Ok (map (fun i => Arr (map (fun s => num (nth i s "")) rs)) (seq 0 (List.length r)))
  end.
Definition genfromtxt (num : string -> option Q) (usecols : option nat) (skip_header skip_footer : nat) (file : list string) : res (list col) :=
  bind (rows usecols skip_header skip_footer file) (columns num).

(** float(s) and int(s). *)
Definition float (num : string -> option Q) (s : string) : res Q := match num s with Some q => Ok q | None => Err ValueError end.
Definition int_ok (s : string) : bool := let t := unsigned (strip s) in negb (String.eqb t "") && all_digits t.
(** The first line with a text, and the lines after it, with its number. *)
Fixpoint find_line (p : string) (n : nat) (ls : list string) : option (nat * string * list string) :=
  match ls with [] => None | l :: r => if contains p l then Some (n, l, r) else find_line p (S n) r end.

(** data.py:95-96. *)
Definition default_qks : dict := [("h", "h"); ("k", "k"); ("l", "l"); ("e", "e"); ("temp", "temp")].

(** icp.py:34-35: re.findall(r"(?='(.*?)')", line), the texts between neighbouring quotes. *)
Definition quoted (l : string) : list string := removelast (tl (split "'" l)).
Definition from_end (n : nat) (l : list string) : res string := if Nat.leb n (List.length l) then Ok (nth (List.length l - n) l "") else Err IndexError.
(** icp.py:33-35: the monitor counts of one point. *)
Definition icp_monitor (num : string -> option Q) (l : string) : res Q :=
  bind (from_end 2 (quoted l)) (fun a => if int_ok a then
    bind (from_end 4 (quoted l)) (fun b =>
    bind (map_res (float num) (words b)) (fun v => match v with [m; p] => Ok (m * p)%Q | _ => Err ValueError end)) else Err ValueError).
(** icp.py:18-63.  The lines of an empty file are not numbered and args[0] does not exist. *)
Definition load_icp (num : string -> option Q) (build : bool) (file : list string) : res loaded :=
  bind (match file with [] => Ok 0%Q | l :: _ => icp_monitor num l end) (fun m =>
  bind (genfromtxt num None 12 0 file) (fun cs =>
  match find_line "Q(x)" 0 file with
  | None => Err UnboundLocalError
  | Some (_, l, _) =>
    match cs with
    | [] => Err IndexError
    | c :: _ => Ok (mkLoaded (put "monitor" (match c with Arr v => Arr (map (fun _ => Some m) v) | Num _ => Num (Some m) end) (assign (words l) cs))
                      [("detector", "Counts"); ("time", "min"); ("monitor", "monitor")]
                      (if build then [("h", "Q(x)"); ("k", "Q(y)"); ("l", "Q(z)"); ("e", "E"); ("temp", "T-act")] else default_qks) None None)
    end
  end)).
(** mad.py:18-56.  GenericException stands for StopIteration. *)
Definition load_mad (num : string -> option Q) (build : bool) (file : list string) : res loaded :=
  match find_line "DATA_:" 0 file with
  | None => Err UnboundLocalError
  | Some (_, _, []) => Err GenericException
  | Some (i, _, names :: _) =>
    bind (genfromtxt num None (i + 2)%nat 1 file) (fun cs =>
    Ok (mkLoaded (assign (words names) cs) [("detector", "CNTS"); ("time", "TIME"); ("monitor", "M1")]
          (if build then [("h", "QH"); ("k", "QK"); ("l", "QL"); ("e", "EN"); ("temp", "TT")] else default_qks) None None))
  end.
(** ice.py:18-56. *)
Definition load_ice (num : string -> option Q) (build : bool) (file : list string) : res loaded :=
  bind (genfromtxt num (Some 9%nat) 0 0 file) (fun cs =>
  match find_line "Columns" 0 file with
  | None => Err UnboundLocalError
  | Some (_, l, _) => Ok (mkLoaded (assign (tl (words l)) cs) [("detector", "Detector"); ("monitor", "Monitor"); ("time", "Time")]
                            (if build then [("h", "QX"); ("k", "QY"); ("l", "QZ"); ("e", "E"); ("temp", "Temp")] else default_qks) None None)
  end).
(** spice.py:33-41: the header and the names; the last names count.  GenericException stands for StopIteration. *)
Fixpoint spice_header (ls : list string) : res (list string * option (list string)) :=
  match ls with
  | [] => Ok ([], None)
  | l :: r => if contains "col_headers" l
              then match r with
                   | [] => Err GenericException
                   | n :: r' => bind (spice_header r') (fun '(h, c) => Ok (h, match c with Some _ => c | None => Some (tl (words n)) end))
                   end
              else bind (spice_header r) (fun '(h, c) => Ok (if has "#" l then remove "# " l :: h else h, c))
  end.
(** spice.py:18-63; the defaults for plots and the instrument are left out. *)
Definition load_spice (num : string -> option Q) (build : bool) (file : list string) : res loaded :=
  bind (spice_header file) (fun '(h, names) =>
  bind (genfromtxt num None 0 0 file) (fun cs =>
  match names with
  | None => Err UnboundLocalError
  | Some ns => let d := assign ns cs in
               match get "Pt." d with
               | None => Err KeyError
               | Some _ => Ok (mkLoaded (del "Pt." d) [("monitor", "monitor"); ("detector", "detector"); ("time", "time")]
                                 (if build then [("h", "h"); ("k", "k"); ("l", "l"); ("e", "e"); ("temp", "tvti")] else default_qks) (Some h) None)
               end
  end)).
(** grasp.py:61-80.  loadtxt raises ValueError for rows of different lengths and for texts that are not numbers. *)
Definition load_grasp (num : string -> option Q) (file : list string) : res loaded :=
  match find_line "Err_I" 0 file with
  | None => Err UnboundLocalError
  | Some (n, l, _) =>
    bind (rows None (n + 1)%nat 0 file) (fun rs =>
    if forallb (forallb (fun x => match num x with Some _ => true | None => false end)) rs then
      bind (columns num rs) (fun cs =>
      let d := assign (words l) cs in
      let ones c := match c with Arr v => Arr (map (fun _ => Some 1%Q) v) | Num _ => Num (Some 1%Q) end in
      match get "I" d with
      | None => Err KeyError
      | Some c => let d := put "time" (ones c) (put "monitor" (ones c) d) in
                  match get "Err_I" d with
                  | None => Err KeyError
                  | Some e => Ok (mkLoaded d [("detector", "I"); ("monitor", "monitor"); ("time", "time")] default_qks None (Some e))
                  end
      end)
    else Err ValueError)
  end.

(** data.py: the properties h, k, l, e, temp (249-357) and detector, monitor, time (219-247): self._data[self.Q_keys[k]]. *)
Definition Q_of (d : loaded) (k : string) : option col := match get k (qks d) with Some n => get n (cols d) | None => None end.
Definition role (d : loaded) (k : string) : option col := match get k (dks d) with Some n => get n (cols d) | None => None end.

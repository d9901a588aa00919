(** [combine_data] on the columns as they are stored: neutronpy/data/data.py:425-477.  DataModel.v has the same function on rows. *)
From Coq Require Import String List QArith Bool Arith.
From Verif Require Import Base DataModel.
Import ListNotations.

(** data.py:94: [_data], an OrderedDict of columns. *)
Definition store := list (key * list Q).
(** [val[i]]. *)
Definition item (c : list Q) (i : nat) : res Q := match nth_error c i with Some v => Ok v | None => Err IndexError end.
(** [obj._data[key]]. *)
Fixpoint cget (s : store) (k : key) : res (list Q) :=
  match s with [] => Err KeyError | (k', c) :: s' => if String.eqb k' k then Ok c else cget s' k end.
(** data.py:453, 455-456: the values of point [i] in the columns not named in [data_keys]. *)
Definition vals (dk : list key) (s : store) (i : nat) : res (list Q) :=
  map_res (fun kc => item (snd kc) i) (filter (fun kc => negb (mem (fst kc) dk)) s).
(** data.py:454-461, 462: the first point of self, from [j] on and among [n], that is close. *)
Fixpoint cscan (t : tolarg) (nkeys_obj : nat) (dk : list key) (self : store) (new : list Q) (j n : nat) : res (option nat) :=
  match n with
  | O => Ok None
  | S n' => bind (vals dk self j) (fun orig => bind (close t nkeys_obj orig new) (fun b =>
            if b then Ok (Some j) else cscan t nkeys_obj dk self new (S j) n'))
  end.
(** data.py:458-460: [_data_temp[_key][j] += obj._data[_key][i]]. *)
Definition cadd (dk : list key) (obj : store) (i j : nat) (tmp : store) : res store :=
  map_res (fun kc => if mem (fst kc) dk
                     then bind (cget obj (fst kc)) (fun o => bind (item o i) (fun v => bind (upd_res j (fun x => Ok (x + v)%Q) (snd kc)) (fun c => Ok (fst kc, c))))
                     else Ok kc) tmp.
(** data.py:462-464: each column is lengthened. *)
Definition cappend (obj : store) (i : nat) (tmp : store) : res store :=
  map_res (fun kc => bind (cget obj (fst kc)) (fun o => bind (item o i) (fun v => Ok (fst kc, (snd kc ++ [v])%list)))) tmp.
(** data.py:452-464: points [i], [i + 1], ... of obj, [n] of them. *)
Fixpoint cloop (t : tolarg) (dk_s : list key) (self : store) (n_self : nat) (dk_o : list key) (obj : store) (i n : nat) (tmp : store) : res store :=
  match n with
  | O => Ok tmp
  | S n' => bind (vals dk_o obj i) (fun new => bind (cscan t (List.length obj) dk_s self new 0 n_self) (fun found =>
            bind (match found with Some j => cadd dk_s obj i j tmp | None => cappend obj i tmp end) (fun tmp' =>
            cloop t dk_s self n_self dk_o obj (S i) n' tmp')))
  end.
(** data.py:467: np.lexsort of the columns, the last one first, as a stable sort of the positions; TypeError without columns, ValueError
    for columns of different lengths. *)
Definition at_pos (cs : list (list Q)) (i : nat) : list Q := map (fun c => nth i c 0%Q) cs.
Fixpoint insert_pos (le : nat -> nat -> bool) (x : nat) (l : list nat) : list nat :=
  match l with [] => [x] | y :: l' => if le x y then x :: l else y :: insert_pos le x l' end.
Fixpoint sort_pos (le : nat -> nat -> bool) (l : list nat) : list nat := match l with [] => [] | x :: l' => insert_pos le x (sort_pos le l') end.
Definition lexsort (cs : list (list Q)) : res (list nat) :=
  match cs with
  | [] => Err TypeError
  | c :: cs' => if forallb (fun d => Nat.eqb (List.length d) (List.length c)) cs'
                then Ok (sort_pos (fun i j => lex_leb (rev (at_pos cs i)) (rev (at_pos cs j))) (seq 0 (List.length c)))
                else Err ValueError
  end.
(** data.py:468-470: [value[ind]] for every column. *)
Definition gather (ind : list nat) (s : store) : res store := map_res (fun kc => bind (map_res (item (snd kc)) ind) (fun c => Ok (fst kc, c))) s.
(** data.py:425-470. *)
Definition combine_columns (dk_s : dkeys) (self : store) (dk_o : dkeys) (obj : store) (t : tolarg) : res store :=
  bind (cget obj (kdet dk_o)) (fun od =>
  bind (match od with [] => Ok 0%nat | _ => bind (cget self (kdet dk_s)) (fun sd => Ok (List.length sd)) end) (fun n_self =>
  bind (cloop t (dk_list dk_s) self n_self (dk_list dk_o) obj 0 (List.length od) self) (fun tmp =>
  bind (lexsort (map snd (filter (fun kc => negb (mem (fst kc) (dk_list dk_s))) tmp))) (fun ind => gather ind tmp)))).

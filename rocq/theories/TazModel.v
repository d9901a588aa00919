(** Saving a triple-axis instrument as Takin xml and loading it: neutronpy/fileio/instrument.py. *)
From Coq Require Import String Ascii List Arith Bool.
From Verif Require Import Base TextModel InstrFileModel.
Import ListNotations.
Local Open Scope string_scope.

(** instrument.py:10-59: the element, and the attribute it stands for: [At g k] is g.k, or k of the instrument itself if g is empty; both
    empty is the attribute named by the empty text, the '' of the table.  [Item k n] is k[-n]. *)
Inductive target := At (g k : string) | Item (k : string) (n : nat).
Definition taz_keys : list (string * target) :=
  [("algo", At "" "method"); ("ana_d", At "ana" "d"); ("ana_effic", At "" ""); ("ana_mosaic", At "ana" "mosaic"); ("ana_scatter_sense", At "ana" "direct");
   ("h_coll_after_sample", Item "hcol" 2); ("h_coll_ana", Item "hcol" 1); ("h_coll_before_sample", Item "hcol" 3); ("h_coll_mono", Item "hcol" 4);
   ("mono_d", At "mono" "d"); ("mono_mosaic", At "mono" "mosaic"); ("mono_refl", At "" ""); ("mono_scatter_sense", At "mono" "direct");
   ("pop_ana_curvh", At "ana" "rh"); ("pop_ana_curvv", At "ana" "rv"); ("pop_ana_h", At "ana" "height"); ("pop_ana_thick", At "ana" "depth");
   ("pop_ana_use_curvh", At "" ""); ("pop_ana_use_curvv", At "" ""); ("pop_ana_w", At "ana" "width");
   ("pop_det_h", At "detector" "height"); ("pop_det_rect", At "" ""); ("pop_det_w", At "detector" "width");
   ("pop_dist_ana_det", Item "arms" 2); ("pop_dist_mono_sample", Item "arms" 4); ("pop_dist_sample_ana", Item "arms" 3);
   ("pop_dist_src_mono", Item "arms" 5); ("pop_guide_divh", Item "arms" 1); ("pop_guide_divv", At "" "");
   ("pop_mono_curvh", At "mono" "rh"); ("pop_mono_curvv", At "mono" "rv"); ("pop_mono_h", At "mono" "height"); ("pop_mono_thick", At "mono" "depth");
   ("pop_mono_use_curvh", At "" ""); ("pop_mono_use_curvv", At "" ""); ("pop_mono_w", At "mono" "width");
   ("pop_sample_cuboid", At "sample" "depth"); ("pop_sample_h", At "sample" "height"); ("pop_sample_wperpq", At "" ""); ("pop_sample_wq", At "sample" "width");
   ("pop_src_h", At "guide" "height"); ("pop_src_rect", At "" ""); ("pop_src_w", At "guide" "width");
   ("sample_mosaic", At "sample" "mosaic"); ("sample_scatter_sense", At "sample" "direct"); ("use_guide", At "" "");
   ("v_coll_after_sample", Item "vcol" 2); ("v_coll_ana", Item "vcol" 1); ("v_coll_before_sample", Item "vcol" 3); ("v_coll_mono", Item "vcol" 4)].
(** instrument.py:631-633, by their texts. *)
Definition defaults : list string :=
  ["1"; "0"; "0"; "1"; "0"; "3.355"; "45"; "1"; "5"; "3.355"; "45"; "1"; "30"; "10000.0"; "30"; "10000.0"; "10000.0"; "10000.0"; "10000.0"; "10000.0"; "12"; "6"; "1";
   "0"; "200"; "8"; "0.15"; "0"; "1"; "12"; "1.5"; "0"; "3"; "1.5"; "0"; "0"; "8"; "0.3"; "0"; "0"; "12"; "2.5"; "5"; "1"; "10"; "200"; "115"; "85"; "15"; "15"].

(** str(v[-n]), n > 0. *)
Definition item_text (v : value) (n : nat) : res string :=
  match v with
  | Lst l | Arr l => match nth_error (List.rev l) (n - 1) with Some s => Ok s | None => Err IndexError end
  | Text s => if Nat.leb n (String.length s) then Ok (substring (String.length s - n) 1 s) else Err IndexError
  | Num _ | Other _ => Err TypeError
  end.
(** instrument.py:637-657: the text of one element.  A missing attribute or object leaves the default. *)
Definition elem_text (I : inst) (t : target) (dflt : string) : res string :=
  match t with
  | At g k => Ok (match val I g k with Some v => text v | None => dflt end)
  | Item k n => match val I "" k with Some v => item_text v n | None => Ok dflt end
  end.
(** The document: the texts of the elements of reso. *)
Definition document := list (string * string).
(** instrument.py:635-659. *)
Definition document_of (I : inst) : res document :=
  map_res (fun '((e, t), dflt) => bind (elem_text I t dflt) (fun s => Ok (e, s))) (combine taz_keys defaults).

(** Files written as documents: the document at the beginning, and the number of characters that follow it.
    Simplifications: texts are written as they are (no characters that xml has to escape, no texts of white space only, which parsing could change),
    and only files written by this function are considered: they end with the tag of the last element and a newline. *)
Record tazfile := mkTaz { f_doc : document; f_extra : nat }.
Definition files := string -> option tazfile.
Definition write (f : files) (name : string) (t : tazfile) : files := fun n => if String.eqb n name then Some t else f n.
(** The length of the document as text, up to a constant. *)
Definition size (d : document) : nat := fold_right (fun '(e, s) n => String.length s + 2 * String.length e + n) 0 d.
(** instrument.py:626-629, 661-664: modes w+ and r+. *)
Definition save_taz (I : inst) (name : string) (overwrite : bool) (f : files) : files * res unit :=
  match document_of I with
  | Err e => (f, Err e)
  | Ok d => let n := name ++ ".taz" in
            if overwrite then (write f n (mkTaz d 0), Ok tt)
            else match f n with
                 | None => (f, Err OSError)
                 | Some old => (write f n (mkTaz d (size (f_doc old) + f_extra old - size d)), Ok tt)
                 end
  end.

(** instrument.py:457-460: reso.find(key).text, None for an empty element. *)
Definition found (d : document) (e : string) : res string := match find (fun '(e', _) => String.eqb e' e) d with Some (_, s) => Ok s | None => Err AttributeError end.
Definition text_value (s : string) : value := match s with "" => Other "None" | _ => Text s end.
(** instrument.py:462-465: one number of a list; len(None) raises. *)
Definition number (s : string) : res string := match s with "" => Err TypeError | _ => float s end.
Definition same_target (a b : target) : bool :=
  match a, b with At g k, At g' k' => String.eqb g g' && String.eqb k k' | Item k n, Item k' n' => String.eqb k k' && Nat.eqb n n' | _, _ => false end.
(** values[target]: the last element of that target. *)
Definition value_of (vs : list (target * string)) (t : target) : string := match find (fun '(t', _) => same_target t' t) (List.rev vs) with Some (_, s) => s | None => "" end.
Definition numbers (vs : list (target * string)) (k : string) (n : nat) : res (list string) :=
  map_res (fun i => number (value_of vs (Item k (n - i)))) (seq 0 n).
(** instrument.py:470-477: the values in the order of the dictionary; a repeated key keeps its place and the last value, which does not matter
    here as the assignments to different names commute.  The objects mono, ana, sample, detector and guide are there. *)
Definition put_all (I : inst) (vs : list (target * string)) : inst :=
  fold_left (fun I '(t, s) => match t with At g k => put I g k (text_value s) | Item _ _ => I end) vs I.
(** instrument.py:455-479. *)
Definition instrument_of (d : document) : res inst :=
  bind (map_res (fun '(e, t) => bind (found d e) (fun s => Ok (t, s))) taz_keys) (fun vs =>
  bind (numbers vs "hcol" 4) (fun h =>
  bind (numbers vs "vcol" 4) (fun v =>
  bind (numbers vs "arms" 5) (fun a =>
  Ok (put_all (put (put (put default "" "hcol" (Lst h)) "" "vcol" (Lst v)) "" "arms" (Lst a)) vs))))).
(** instrument.py:448-453: what follows the document may only be white space; one character is the last newline of the file, more include the tag before
    it.  GenericException stands for the ParseError of the xml library. *)
Definition load_taz (name : string) (f : files) : res inst :=
  match f name with
  | None => Err OSError
  | Some t => if Nat.leb (f_extra t) 1 then instrument_of (f_doc t) else Err GenericException
  end.

(** The beginning of calc_resolution_in_Q_coords, instrument/tas_instrument.py:589-592: np.array(v) times a number, for three attributes in turn;
    only whether it raises. *)
Definition times (v : option value) : res unit :=
  match v with
  | None => Err AttributeError
  | Some (Num _ | Lst _ | Arr _) => Ok tt
  | Some (Text _) => Err TypeError
  | Some (Other s) => if String.eqb s "None" then Err TypeError else Ok tt
  end.
Definition divergences (I : inst) : res unit :=
  bind (times (val I "" "hcol")) (fun _ => bind (times (val I "" "vcol")) (fun _ => times (val I "mono" "mosaic"))).

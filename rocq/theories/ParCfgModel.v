(** Instruments from a pair of par and cfg files: neutronpy/fileio/instrument.py:246-391. *)
From Coq Require Import String List ZArith Reals.
From Verif Require Import Base MatInv LinAlg EnergyModel LatticeModel TextModel TasModel HistModel.
Import ListNotations.
Local Open Scope string_scope.

(** A file: its lines.  [num]: the number float() makes of a text, if any. *)
(** instrument.py:248-253: the dictionary, later lines first.  The first character of a name is dropped. *)
Definition par_line (num : string -> option R) (line : string) : res (string * R) :=
  match words line with
  | v :: n :: _ => match num v with Some x => Ok (lower (skip_chars 1 n), x) | None => Err ValueError end
  | _ => Err IndexError
  end.
Definition read_par (num : string -> option R) (ls : list string) : res (list (string * R)) :=
  bind (map_res (par_line num) ls) (fun l => Ok (List.rev l)).
(** instrument.py:255-260. *)
Definition cfg_line (num : string -> option R) (line : string) : res R :=
  match words line with v :: _ => match num v with Some x => Ok x | None => Err ValueError end | [] => Err IndexError end.
Definition read_cfg (num : string -> option R) (ls : list string) : res (list R) := map_res (cfg_line num) ls.
(** par[k]. *)
Fixpoint lookup (k : string) (l : list (string * R)) : option R := match l with [] => None | (k', x) :: r => if String.eqb k' k then Some x else lookup k r end.

Local Open Scope R_scope.
(** Division of Python numbers. *)
Definition pdiv (x y : R) : res R := if Req_EM_T y 0 then Err ZeroDivisionError else Ok (x / y).
(** instrument.py:282-287, 303-310, 313-318. *)
Definition extent (flag x : R) : R := if Req_EM_T flag 0 then x / 4 else x / sqrt 12.
(** instrument.py:292-300, one of the two collimations. *)
Definition limited (k : R) (col guide : R) : res R :=
  bind (pdiv (PI / 60 / 180 * 2 * PI * guide) k) (fun a =>
  if Rle_dec a (col * PI / 60 / 180) then bind (pdiv (2 * PI) k) (fun x => Ok (x * guide)) else Ok col).
(** instrument.py:336-340. *)
Definition radius (inv_rad : R) : R := if Req_EM_T inv_rad 0 then 10 ^ 6 else 1 / inv_rad.
Definition vec4 (a b c d : R) : vec := fun i => nth i [a; b; c; d] 0.

(** The attributes dir1, dir2 and mondir, which nothing reads. *)
Record loaded := mkLoaded { instr : inst; dir1 : R; dir2 : R; mondir : R }.

(** The values, where they exist. *)
Definition pval (par : list (string * R)) (k : string) : R := match lookup k par with Some x => x | None => 0 end.
Definition cval (cfg : list R) (i : nat) : R := nth i cfg 0.
Definition need (par : list (string * R)) (ks : list string) : res unit := if forallb (fun k => match lookup k par with Some _ => true | None => false end) ks then Ok Datatypes.tt else Err KeyError.
Definition upto (cfg : list R) (n : nat) : res unit := if Nat.leb n (List.length cfg) then Ok Datatypes.tt else Err IndexError.
(** instrument.py:289-300: the first collimations. *)
Definition first_cols (par : list (string * R)) (cfg : list R) : res (R * R) :=
  if Req_EM_T (cval cfg 3) 1 then
    bind (need par ["k"%string]) (fun _ =>
    bind (limited (pval par "k") (pval par "alpha1") (cval cfg 4)) (fun a =>
    bind (limited (pval par "k") (pval par "beta1") (cval cfg 5)) (fun b => Ok (a, b))))
  else Ok (pval par "alpha1", pval par "beta1").
(** instrument.py:262-391 with the constructors of Sample (crystal/sample.py:118-141: the seventh argument is u), Instrument
    (tas_instrument.py:96-123: the orientation vectors are copied), Monochromator and Analyzer (dir is -1, horifoc -1).
    P and C: the values in the two files; [ab]: the first collimations. *)
Definition make (P : string -> R) (C : nat -> R) (ab : R * R) (efixed taum taua : R) : loaded :=
  let d1 := if Req_EM_T (P "sm") (P "ss") then -1 else 1 in
  let d2 := if Req_EM_T (P "ss") (P "sa") then -1 else 1 in
  let infin := if Req_EM_T (P "kfix") 2 then -1 else P "kfix" in
  let mono := mkX taum (P "etam") None (-1) (Some (C 14%nat)) (Some (C 15%nat)) (Some (C 13%nat)) (Some (radius (P "sm" * C 24%nat))) (Some (radius (P "sm" * C 23%nat))) in
  let ana := mkX taua (P "etaa") None (-1) (Some (C 17%nat)) (Some (C 18%nat)) (Some (C 16%nat)) (Some (radius (P "sa" * C 26%nat))) (Some (radius (P "sa" * C 25%nat))) in
  mkLoaded
    (mkInst (mkTas (Some (MNum 1)) None (vec4 (fst ab) (P "alpha2") (P "alpha3") (P "alpha4")) (vec4 (snd ab) (P "beta2") (P "beta3") (P "beta4")) mono ana None None
               (Some infin) efixed (Some [C 19; C 20; C 21; C 22; C 27]%nat) (Some (-1)%Z)
               (Some (mkW (Some (extent (C 0%nat) (C 1%nat))) (Some (extent (C 0%nat) (C 2%nat)))))
               (Some (mkW (Some (C 28%nat / sqrt 12)) (Some (C 29%nat / sqrt 12))))
               (Some (mkW (Some (extent (C 10%nat) (C 11%nat))) (Some (extent (C 10%nat) (C 12%nat)))))
               1 None None (Some "rectangular"%string) None None None
               (Some (S2 (diag [extent (C 6%nat) (C 7%nat); extent (C 6%nat) (C 8%nat); extent (C 6%nat) (C 9%nat)]))))
            (mkL (P "as") (P "bs") (P "cs") (P "aa") (P "bb") (P "cc")) (V (P "ax") (P "ay") (P "az")) (V (P "bx") (P "by") (P "bz")) None None None)
    d1 d2 (P "sm").
(** The same lines, in the order in which they can fail. *)
Definition build_instrument (c : consts) (par : list (string * R)) (cfg : list R) : res loaded :=
  bind (need par ["sm"; "ss"; "sa"; "kfix"; "alpha1"; "alpha2"; "alpha3"; "alpha4"; "beta1"; "beta2"; "beta3"; "beta4"]%string) (fun _ =>
  bind (upto cfg 6) (fun _ =>
  bind (first_cols par cfg) (fun ab =>
  bind (upto cfg 30) (fun _ =>
  bind (need par ["k"%string]) (fun _ =>
  bind (build c QWavevector (pval par "k")) (fun E =>
  bind (need par ["as"; "bs"; "cs"; "aa"; "bb"; "cc"; "etas"; "ax"; "ay"; "az"; "bx"; "by"; "bz"; "dm"]%string) (fun _ =>
  bind (pdiv (2 * PI) (pval par "dm")) (fun taum =>
  bind (need par ["etam"; "da"]%string) (fun _ =>
  bind (pdiv (2 * PI) (pval par "da")) (fun taua =>
  bind (need par ["etaa"%string]) (fun _ =>
  Ok (make (pval par) (cval cfg) ab (en E) taum taua)))))))))))).

(** The whole call. *)
Definition load_parcfg (num : string -> option R) (c : consts) (parfile cfgfile : option (list string)) : res loaded :=
  match parfile with
  | None => Err OSError
  | Some pl => bind (read_par num pl) (fun par =>
               match cfgfile with
               | None => Err OSError
               | Some cl => bind (read_cfg num cl) (fun cfg => build_instrument c par cfg)
               end)
  end.

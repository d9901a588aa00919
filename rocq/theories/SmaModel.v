(** Convolution of single-mode cross sections with the resolution function: TripleAxisInstrument.resolution_convolution_SMA,
    neutronpy/instrument/tas_instrument.py:1285-1472, and the line shape _voigt, neutronpy/instrument/tools.py:298-362, over the
    reals.  As in ConvModel.v the call of calc_resolution has succeeded and the cross section works point by point.  Complex
    numbers are pairs; a division by zero is [None].  Rounding, here to complex64, is not modelled. *)
From Coq Require Import String List ZArith Reals Bool.
From Verif Require Import Base MatModel LinAlg ConvModel.
Import ListNotations.
Local Open Scope R_scope.

Definition cx := (R * R)%type.
Definition cre (x : R) : cx := (x, 0).
Definition cadd (z w : cx) : cx := (fst z + fst w, snd z + snd w).
Definition csub (z w : cx) : cx := (fst z - fst w, snd z - snd w).
Definition cmul (z w : cx) : cx := (fst z * fst w - snd z * snd w, fst z * snd w + snd z * fst w).
Definition cexp (z : cx) : cx := (exp (fst z) * cos (snd z), exp (fst z) * sin (snd z)).
Definition cdiv (z w : cx) : option cx :=
  let n := fst w * fst w + snd w * snd w in
  if Req_EM_T n 0 then None else Some ((fst z * fst w + snd z * snd w) / n, (snd z * fst w - fst z * snd w) / n).
(** c0 + t (c1 + t (c2 + ..)) and c0 - u (c1 - u (c2 - ..)). *)
Fixpoint horner (l : list R) (t : cx) : cx := match l with [] => cre 0 | [c] => cre c | c :: l => cadd (cre c) (cmul t (horner l t)) end.
Fixpoint horner_minus (l : list R) (t : cx) : cx := match l with [] => cre 0 | [c] => cre c | c :: l => csub (cre c) (cmul t (horner_minus l t)) end.

(** tools.py:299-328 *)
Definition approx1 (t : cx) : option cx := cdiv (cmul t (cre (5641896 / 10 ^ 7))) (cadd (cre (5 / 10)) (cmul t t)).
Definition approx2 (t u : cx) : option cx :=
  cdiv (cmul t (cadd (cre (1410474 / 10 ^ 6)) (cmul u (cre (5641896 / 10 ^ 7))))) (cadd (cre (75 / 100)) (cmul u (cadd (cre 3) u))).
Definition n3 : list R := [164955 / 10 ^ 4; 2020933 / 10 ^ 5; 1196482 / 10 ^ 5; 3778987 / 10 ^ 6; 5642236 / 10 ^ 7].
Definition d3 : list R := [164955 / 10 ^ 4; 3882363 / 10 ^ 5; 3927121 / 10 ^ 5; 2169274 / 10 ^ 5; 6699398 / 10 ^ 6; 1].
Definition approx3 (t : cx) : option cx := cdiv (horner n3 t) (horner d3 t).
Definition n4 : list R := [3618331 / 100; 332199 / 100; 1540787 / 1000; 219031 / 1000; 357668 / 10 ^ 4; 1320522 / 10 ^ 6; 56419 / 10 ^ 5].
Definition d4 : list R := [320666 / 10; 243228 / 10; 902223 / 100; 218618 / 100; 364219 / 1000; 615704 / 10 ^ 4; 184144 / 10 ^ 5; 1].
Definition approx4 (t u : cx) : option cx := cdiv (cmul t (horner_minus n4 u)) (horner_minus d4 u).

Definition ltb (x y : R) : bool := if Rlt_dec x y then true else false.
Definition leb (x y : R) : bool := if Rle_dec x y then true else false.
Definition eqb (x y : R) : bool := if Req_EM_T x y then true else false.
(** tools.py:330-362 for one element; each line overwrites the values at the places it selects. *)
Definition voigt (x a : R) : option R :=
  let t := (a, - x) in
  let ax := Rabs x in
  let s := ax + a in
  let u := cmul t t in
  let y := Some (cre 0) in
  let y := if eqb a 0 then Some (cre (exp (- x ^ 2))) else y in
  let y := if leb 15 a || leb 15 s then approx1 t else y in
  let y := if ltb s 15 && ltb a 15 && leb (55 / 10) a then approx2 t u else y in
  let y := if ltb s 15 && leb (55 / 10) s && ltb a (55 / 10) then approx2 t u else y in
  let y := if ltb s (55 / 10) && ltb a (55 / 10) && leb (75 / 100) a then approx3 t else y in
  let y := if ltb s (55 / 10) && leb (195 / 1000 * ax - 176 / 1000) a && ltb a (75 / 100) then approx3 t else y in
  let y := if negb (ltb s (55 / 10) && leb (195 / 1000 * ax - 176 / 1000) a) && ltb a (75 / 100)
           then option_map (fun z => csub (cexp u) z) (approx4 t u) else y in
  option_map fst y.

(** One mode: dispersion, intensity and line width. *)
Record mode := mkMode { disp : v3 -> R; inte : v3 -> R; wl : v3 -> R }.

(** tas_instrument.py:1346-1368.  As in ConvModel.v the subtractions act on the copied array.  [None] where a root or quotient
    is not a number. *)
Record factors := mkF { gamma_f : R; omega_x : R; omega_y : R; fqz : R; fqy : R; fqxx : R; fqxy : R; detxy : R; detz : R }.
Definition factors_of (m : mat) : option factors :=
  let Mww := m 3%nat 3%nat in
  let Mxw := m 0%nat 3%nat in
  let Myw := m 1%nat 3%nat in
  let Mzz := m 2%nat 2%nat in
  let Mxx := m 0%nat 0%nat - Mxw ^ 2 / Mww in
  let Myy := m 1%nat 1%nat - Myw ^ 2 / Mww in
  let Mxy := m 0%nat 1%nat - Mxw * Myw / Mww in
  let dxy := sqrt (Mxx * Myy - Mxy ^ 2) in
  let dz := sqrt Mzz in
  if positive Mww && positive Mxx && positive (Mxx * Myy - Mxy ^ 2) && positive Mzz then
    Some (mkF (sqrt (Mww / 2)) (Mxw / sqrt (2 * Mww)) (Myw / sqrt (2 * Mww)) (1 / dz) (sqrt Mxx / dxy) (1 / sqrt Mxx) (Mxy / sqrt Mxx / dxy) dxy dz)
  else None.

(** tas_instrument.py:1408-1419, 1444-1455 without norm: what one sampling point adds for a mode. *)
Definition added (a : axes) (F : factors) (md : mode) (p : meas) (tx ty tz : R) : option R :=
  let dQ1 := fqxx F * tx - fqxy F * ty in
  let dQ2 := fqy F * ty in
  let dQ4 := fqz F * tz in
  let q := displaced a (me_q p) dQ1 dQ2 dQ4 in
  let Gamma := wl md q * gamma_f F in
  let Omega := gamma_f F * (disp md q - me_w p) + omega_x F * dQ1 + omega_y F * dQ2 in
  option_map (fun v => inte md q * v) (voigt Omega Gamma).

(** A sum with a nan is nan. *)
Definition osum (l : list (option R)) : option R :=
  fold_right (fun x y => match x, y with Some a, Some b => Some (a + b) | _, _ => None end) (Some 0) l.

(** tas_instrument.py:1436-1456: what is accumulated for one mode at one point. *)
Definition sma_sum (a : axes) (F : factors) (md : mode) (p : meas) (m0 m1 : nat) : option R :=
  osum (map (fun cz => osum (map (fun cy => osum (map (fun cx =>
    option_map (fun v => v * (weight (tan cx) * weight (tan cy)) * weight (tan cz) / detxy F / detz F) (added a F md p (tan cx) (tan cy) (tan cz)))
    (grid m0))) (grid m0))) (grid m1)).

(** tas_instrument.py:1458-1470 *)
Definition sma_point (a : axes) (modes : nat) (sqw : nat -> mode) (pf : nat -> nat -> R) (bg : nat -> R)
    (m0 m1 : nat) (i : nat) (p : meas) : option R :=
  match factors_of (me_M p) with
  | None => None
  | Some F =>
      option_map (fun v => v * step m0 ^ 2 * step m1 * one_point m1 * one_point m0 ^ 2 * me_R0 p + bg i)
        (osum (map (fun j => option_map (fun v => v * pf j i) (sma_sum a F (sqw j) p m0 m1)) (seq 0 modes)))
  end.

Section Mc.
  Context {St : Type} (g : rng St) (seed : option Z).
  (** tas_instrument.py:1401-1420: one turn for one mode.  [next] of ConvModel.v draws; three rows are used. *)
  Definition sma_mc (a : axes) (F : factors) (md : mode) (p : meas) (c : nat -> nat -> R) : option R :=
    osum (map (fun k =>
      let tx := tan (c 0%nat k) in let ty := tan (c 1%nat k) in let tz := tan (c 2%nat k) in
      option_map (fun v => v * (exp (- (5 / 10) * (tx ^ 2 + ty ^ 2 + tz ^ 2)) * (1 + tx ^ 2) * (1 + ty ^ 2) * (1 + tz ^ 2)) / detxy F / detz F) (added a F md p tx ty tz))
      (seq 0 1000)).
  (** tas_instrument.py:1397-1420: [n] turns for one point, all modes. *)
  Fixpoint sma_turns (f : (nat -> nat -> R) -> nat -> option R) (n : nat) (acc : nat -> option R) (s : St) : (nat -> option R) * St :=
    match n with
    | O => (acc, s)
    | S n => let '(c, s) := next g seed s in sma_turns f n (fun j => match acc j, f c j with Some x, Some y => Some (x + y) | _, _ => None end) s
    end.
  (** tas_instrument.py:1394-1424, 1469-1470.  0 / 0 is nan. *)
  Fixpoint sma_points (a : axes) (modes : nat) (sqw : nat -> mode) (pf : nat -> nat -> R) (bg : nat -> R)
      (M : Z) (i : nat) (ps : list meas) (s : St) : list (option R) * St :=
    match ps with
    | [] => ([], s)
    | p :: ps =>
        let '(acc, s) := sma_turns (fun c j => match factors_of (me_M p) with Some F => sma_mc a F (sqw j) p c | None => None end) (Z.to_nat M) (fun _ => Some 0) s in
        let r := match factors_of (me_M p) with
          | None => None
          | Some F => if Z.eqb M 0 then None
              else option_map (fun v => v / IZR M / 1000 * PI ^ 3 * me_R0 p + bg i) (osum (map (fun j => option_map (fun v => v * pf j i) (acc j)) (seq 0 modes)))
          end in
        let '(rs, s) := sma_points a modes sqw pf bg M (S i) ps s in
        (r :: rs, s)
    end.
End Mc.

(** tas_instrument.py:1373-1383: np.ones(modes, points) takes the number of points for a type. *)
Definition sma_prefactors (pref : option ((nat -> nat -> R) * (nat -> R))) (nargout : Z) : res ((nat -> nat -> R) * (nat -> R)) :=
  match pref with
  | None => Err TypeError
  | Some _ => prefactors pref nargout
  end.

(** tas_instrument.py:1285-1472.  The accuracies are those of ConvModel.v. *)
Definition convolution_SMA {St} (g : rng St) (a : axes) (modes : nat) (sqw : nat -> mode)
    (pref : option ((nat -> nat -> R) * (nat -> R))) (nargout : Z) (ps : list meas)
    (method : string) (acc : accuracy) (seed : option Z) (s : St) : res (list (option R)) * St :=
  match ps with
  | [_] => (Err IndexError, s)
  | _ =>
      match sma_prefactors pref nargout with
      | Err e => (Err e, s)
      | Ok (pf, bg) =>
          if String.eqb method "mc" then
            match mc_accuracy acc with
            | Err e => (Err e, s)
            | Ok n => let '(r, s) := sma_points g seed a modes sqw pf bg n 0 ps s in (Ok r, s)
            end
          else if String.eqb method "fix" then
            match fix_accuracy acc with
            | Err e => (Err e, s)
            | Ok (m0, m1) => (Ok (mapi (sma_point a modes sqw pf bg m0 m1) 0 ps), s)
            end
          else (Err ValueError, s)
      end
  end.

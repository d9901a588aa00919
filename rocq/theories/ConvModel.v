(** Convolution of a user's cross section with the resolution function: TripleAxisInstrument.resolution_convolution,
    neutronpy/instrument/tas_instrument.py:1094-1283, over the reals.
    The call of calc_resolution (HistModel.v) has succeeded; its results are the arguments.  The cross section is any function
    that works point by point on the arrays it is given and returns the same number of modes every time; its parameter p is
    fixed.  The prefactor function returns what nargout says. *)
From Coq Require Import String List ZArith Reals Bool.
From Verif Require Import Base MatModel LinAlg.
Import ListNotations.
Local Open Scope R_scope.

(** One point: position, energy, and what calc_resolution stored for it, R0 and RMS. *)
Record meas := mkMeas { me_q : v3; me_w : R; me_R0 : R; me_M : mat }.
(** The axes x, y, z of the standard system: tas_instrument.py:1152. *)
Record axes := mkAx { ax_x : v3; ax_y : v3; ax_z : v3 }.

(** The argument ACCURACY: None, a number, or a list, tuple or array. *)
Inductive accuracy := ANone | AInt (z : Z) | AList (l : list Z).

Definition Rsum (l : list R) : R := fold_right Rplus 0 l.

(** tas_instrument.py:1154-1175. *)
Record transf := mkT { tqx : R; tqyy : R; tqyx : R; tqww : R; tqwy : R; tqwx : R; tqz : R; detM : R }.
Definition positive (x : R) : bool := if Rlt_dec 0 x then true else false.
(** The subtractions change the copied array in place, so Mxy and Myy in later lines are the reduced ones.  [None] where a
    pivot is not positive and numpy computes nan or an infinity. *)
Definition transform (m : mat) : option transf :=
  let Mxw := m 0%nat 3%nat in
  let Myw := m 1%nat 3%nat in
  let Mzz := m 2%nat 2%nat in
  let Mww := m 3%nat 3%nat in
  let Mxx := m 0%nat 0%nat - Mxw ^ 2 / Mww in
  let Mxy := m 0%nat 1%nat - Mxw * Myw / Mww in
  let Myy := m 1%nat 1%nat - Myw ^ 2 / Mww in
  let MMxx := Mxx - Mxy ^ 2 / Myy in
  if positive Mww && positive Myy && positive MMxx && positive Mzz then
    Some (mkT (1 / sqrt MMxx) (1 / sqrt Myy) (- Mxy / Myy / sqrt MMxx) (1 / sqrt Mww) (- Myw / Mww / sqrt Myy)
              (- (Mxw / Mww - Myw / Mww * Mxy / Myy) / sqrt MMxx) (1 / sqrt Mzz) (MMxx * Myy * Mzz * Mww))
  else None.

(** tas_instrument.py:1217-1219, 1264-1266: the displaced wave vector. *)
Definition displaced (a : axes) (q : v3) (d1 d2 d4 : R) : v3 :=
  V (vx q + d1 * vx (ax_x a) + d2 * vx (ax_y a) + d4 * vx (ax_z a))
    (vy q + d1 * vy (ax_x a) + d2 * vy (ax_y a) + d4 * vy (ax_z a))
    (vz q + d1 * vz (ax_x a) + d2 * vz (ax_y a) + d4 * vz (ax_z a)).

(** tas_instrument.py:1207-1209, one factor of norm and normz. *)
Definition weight (t : R) : R := exp (- (5 / 10) * t ^ 2) * (1 + t ^ 2).

(** tas_instrument.py:1213-1221, 1260-1268: the cross section at the point the sampling angles lead to. *)
Definition sample (a : axes) (T : transf) (S : v3 -> R -> R) (p : meas) (tx ty tz tw : R) : R :=
  let dQ1 := tqx T * tx in
  let dQ2 := tqyy T * ty + tqyx T * tx in
  let dW := tqwx T * tx + tqwy T * ty + tqww T * tw in
  let dQ4 := tqz T * tz in
  S (displaced a (me_q p) dQ1 dQ2 dQ4) (me_w p + dW).

(** np.linspace(a, b, n), for positive n. *)
Definition linspace_ab (a b : R) (n : nat) : list R :=
  match n with 1%nat => [a] | _ => map (fun k => a + INR k * ((b - a) / (INR n - 1))) (seq 0 n) end.
(** tas_instrument.py:1196-1199: the step and the sampling angles for accuracy [m]. *)
Definition step (m : nat) : R := PI / (2 * INR m + 1).
Definition grid (m : nat) : list R := linspace_ab (- PI / 2 + step m / 2) (PI / 2 - step m / 2) (2 * m + 1).

(** tas_instrument.py:1200-1224: what is accumulated for one mode at one point. *)
Definition fix_sum (a : axes) (T : transf) (S : v3 -> R -> R) (p : meas) (m0 m1 : nat) : R :=
  Rsum (map (fun cz => Rsum (map (fun cw => Rsum (map (fun cx => Rsum (map (fun cy =>
    sample a T S p (tan cx) (tan cy) (tan cz) (tan cw) *
      (weight (tan cx) * weight (tan cy) * weight (tan cw)) * weight (tan cz))
    (grid m0))) (grid m0))) (grid m0))) (grid m1)).

(** tas_instrument.py:1229-1232. *)
Definition one_point (m : nat) : R := match m with 0%nat => 79788 / 100000 | _ => 1 end.

(** tas_instrument.py:1226-1232, 1280-1281: the result at point number [i]; [sqw j] is mode [j]. *)
Definition fix_point (a : axes) (modes : nat) (sqw : nat -> v3 -> R -> R) (pf : nat -> nat -> R) (bg : nat -> R)
    (m0 m1 : nat) (i : nat) (p : meas) : option R :=
  match transform (me_M p) with
  | None => None
  | Some T =>
      Some (Rsum (map (fun j => fix_sum a T (sqw j) p m0 m1 * pf j i) (seq 0 modes))
            * step m0 ^ 3 * step m1 / sqrt (detM T) * one_point m1 * one_point m0 ^ 3 * me_R0 p + bg i)
  end.

(** The random numbers of numpy: np.random.randn(rows, 1000) from the current state, and np.random.seed. *)
Record rng (St : Type) := mkRng { draw : St -> (nat -> nat -> R) * St; reseed : Z -> St }.
Arguments draw {St}. Arguments reseed {St}.

Section Mc.
  Context {St : Type} (g : rng St) (seed : option Z).

  (** tas_instrument.py:1247-1249: the state to draw from, and the angles. *)
  Definition next (s : St) : (nat -> nat -> R) * St :=
    let '(r, s') := draw g (match seed with Some z => reseed g z | None => s end) in
    (fun i k => r i k * PI - PI / 2, s').

  (** tas_instrument.py:1250-1271: one turn for one mode. *)
  Definition mc_sum (a : axes) (T : transf) (S : v3 -> R -> R) (p : meas) (c : nat -> nat -> R) : R :=
    Rsum (map (fun k =>
      let tx := tan (c 0%nat k) in let ty := tan (c 1%nat k) in let tz := tan (c 2%nat k) in let tw := tan (c 3%nat k) in
      sample a T S p tx ty tz tw *
        (exp (- (5 / 10) * (tx ^ 2 + ty ^ 2 + tz ^ 2 + tw ^ 2)) * (1 + tx ^ 2) * (1 + ty ^ 2) * (1 + tz ^ 2) * (1 + tw ^ 2)))
      (seq 0 1000)).
  (** tas_instrument.py:1246-1271: [n] turns for one point, all modes; one draw serves all modes of a turn. *)
  Fixpoint mc_turns (f : (nat -> nat -> R) -> nat -> R) (n : nat) (acc : nat -> R) (s : St) : (nat -> R) * St :=
    match n with
    | O => (acc, s)
    | Datatypes.S n => let '(c, s) := next s in mc_turns f n (fun j => acc j + f c j) s
    end.

  (** tas_instrument.py:1243-1275 and 1280-1281, for an accuracy of [M].  0 / 0 is nan. *)
  Fixpoint mc_points (a : axes) (modes : nat) (sqw : nat -> v3 -> R -> R) (pf : nat -> nat -> R) (bg : nat -> R)
      (M : Z) (i : nat) (ps : list meas) (s : St) : list (option R) * St :=
    match ps with
    | [] => ([], s)
    | p :: ps =>
        let '(r, s) := match transform (me_M p) with
          | None => (None, snd (mc_turns (fun _ _ => 0) (Z.to_nat M) (fun _ => 0) s))
          | Some T =>
              let '(acc, s) := mc_turns (fun c j => mc_sum a T (sqw j) p c) (Z.to_nat M) (fun _ => 0) s in
              (if Z.eqb M 0 then None
               else Some (Rsum (map (fun j => acc j * pf j i) (seq 0 modes)) / IZR M / 1000 * PI ^ 4 / sqrt (detM T) * me_R0 p + bg i), s)
          end in
        let '(rs, s) := mc_points a modes sqw pf bg M (Datatypes.S i) ps s in
        (r :: rs, s)
    end.
End Mc.

(** map with the position. *)
Fixpoint mapi {A B} (f : nat -> A -> B) (i : nat) (l : list A) : list B :=
  match l with [] => [] | x :: l => f i x :: mapi f (S i) l end.

(** tas_instrument.py:1180-1190: prefactor and background.  [pref] is what the prefactor function returns for these points. *)
Definition prefactors (pref : option ((nat -> nat -> R) * (nat -> R))) (nargout : Z) : res ((nat -> nat -> R) * (nat -> R)) :=
  match pref with
  | None => Ok (fun _ _ => 1, fun _ => 0)
  | Some (pf, bg) => if Z.eqb nargout 2 then Ok (pf, bg) else if Z.eqb nargout 1 then Ok (pf, fun _ => 0) else Err ValueError
  end.

(** tas_instrument.py:1193-1199 and 1427-1433: numbers of points of the fixed grid.  A number has no items; np.linspace
    refuses a negative number of points. *)
Definition fix_accuracy (acc : accuracy) : res (nat * nat) :=
  match acc with
  | ANone => Ok (7%nat, 0%nat)
  | AInt _ => Err TypeError
  | AList (m0 :: m1 :: _) => if Z.ltb m0 0 || Z.ltb m1 0 then Err ValueError else Ok (Z.to_nat m0, Z.to_nat m1)
  | AList _ => Err IndexError
  end.
(** tas_instrument.py:1235-1242 and 1386-1393. *)
Definition mc_accuracy (acc : accuracy) : res Z :=
  match acc with
  | ANone => Ok 10%Z
  | AInt z => Ok z
  | AList [z] => Ok z
  | AList _ => Err ValueError
  end.

(** tas_instrument.py:1147-1283.  calc_resolution drops the first axis of RMS for a single point (line 997), so that the
    subscript of line 1154 has one index too many.  The second part of the result is the state of the random numbers. *)
Definition resolution_convolution {St} (g : rng St) (a : axes) (modes : nat) (sqw : nat -> v3 -> R -> R)
    (pref : option ((nat -> nat -> R) * (nat -> R))) (nargout : Z) (ps : list meas)
    (method : string) (acc : accuracy) (seed : option Z) (s : St) : res (list (option R)) * St :=
  match ps with
  | [_] => (Err IndexError, s)
  | _ =>
      match prefactors pref nargout with
      | Err e => (Err e, s)
      | Ok (pf, bg) =>
          if String.eqb method "fix" then
            match fix_accuracy acc with
            | Err e => (Err e, s)
            | Ok (m0, m1) => (Ok (mapi (fix_point a modes sqw pf bg m0 m1) 0 ps), s)
            end
          else if String.eqb method "mc" then
            match mc_accuracy acc with
            | Err e => (Err e, s)
            | Ok n => let '(r, s) := mc_points g seed a modes sqw pf bg n 0 ps s in (Ok r, s)
            end
          else (Err ValueError, s)
      end
  end.

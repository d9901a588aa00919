(** Pictures of an instrument and of its resolution: /repo/neutronpy/instrument/plot.py:27-368.  What matplotlib is told to draw is the
    result; figures, labels, colours and text are left out. *)
From Coq Require Import Reals List ZArith Bool Arith.
From Verif Require Import Base MatModel.
Import ListNotations.
Local Open Scope R_scope.

(** ** The layout of a triple-axis spectrometer (plot.py:229-347) *)

(** plot.py:268-272, 289-294 and so on: turn by [rotate], then go [translate] ahead.  Headings are measured from the y axis towards the
    x axis. *)
Definition walk (s : R * R * R) (translate rotate : R) : R * R * R :=
  let '(x, y, direction) := s in
  let direction := direction + rotate in
  (x + translate * sin direction, y + translate * cos direction, direction).
Definition rad (a : R) : R := - (a * (PI / 180)).
(** plot.py:243-347: source, monochromator, sample, analyzer, detector, for the six angles in degrees and the distances. *)
Definition layout (angles : list R) (arms : list R) : res (list (R * R)) :=
  match arms with
  | d0 :: d1 :: d2 :: d3 :: _ =>
    let s0 := (0, 0, 0) in
    let s1 := walk s0 d0 0 in
    let s2 := walk s1 d1 (rad (nth 1 angles 0)) in
    let s3 := walk s2 d2 (rad (nth 3 angles 0)) in
    let s4 := walk s3 d3 (rad (nth 5 angles 0)) in
    Ok (map fst [s0; s1; s2; s3; s4])
  | _ => Err IndexError
  end.
(** plot.py:277-283, 299-306, 331-336: left and right edge of a crystal of width [w] at the angle [a] (degrees) and the position [(x, y)]. *)
Definition crystal (w a : R) (p : R * R) : (R * R) * (R * R) :=
  let X := - (w / 2) * sin (rad a) in let X' := w / 2 * sin (rad a) in
  ((X + fst p, X * cos (rad a) + snd p), (X' + fst p, X' * cos (rad a) + snd p)).

(** ** The ellipsoid (plot.py:95-206) *)

(** plot.py:132-136, 142: the matrices used, from the stack of calculated ones; after the transposition the slices are indexed by the
    last index.  The shapes other than four matrices fail at lines 177-178: np.delete with an index beyond the size, or reshape. *)
Definition ellipsoid_matrices (stack : list mat) : res (list mat) :=
  match stack with
  | [m] => Ok [m]
  | [] => Ok []
  | [_; _] => Err IndexError
  | [_; _; _; _] => Ok (map (fun ind a b => nth b stack (fun _ _ => 0) a ind) [0; 1; 2; 3]%nat)
  | _ => Err ValueError
  end.
(** plot.py:165-172 (qy0 is y0). *)
Definition exponent (m : mat) (x y w x0 y0 w0 : R) : R :=
  m 0%nat 0%nat * (x - x0) ^ 2 + m 1%nat 1%nat * (y - y0) ^ 2 + m 3%nat 3%nat * (w - w0) ^ 2 +
  2 * m 0%nat 1%nat * (x - x0) * (y - y0) + 2 * m 0%nat 2%nat * (x - x0) * (w - w0) + 2 * m 1%nat 2%nat * (y - y0) * (w - w0).
Definition volume (r0 : R) (m : mat) (x y w x0 y0 w0 : R) : R := r0 * exp (- 1 / 2 * exponent m x y w x0 y0 w0).
(** plot.py:175-179: row and column 2 are deleted; half widths, a hundredth larger. *)
Definition planar (m : mat) : mat := fun i j => m (if Nat.ltb i 2 then i else S i) (if Nat.ltb j 2 then j else S j).
Definition half_width (m : mat) (i : nat) : option R :=
  match fproject (planar m) (Z.of_nat i) with Ok (Some w) => Some (w * (101 / 100)) | _ => None end.
(** plot.py:182-184: the position of index [p] of an axis. *)
Definition grid_pos (q0 w : R) (dpi : nat) (p : R) : R := q0 - w + (2 * w) * p / INR dpi.
(** plot.py:190-195: where a vertex at index [p] is drawn. *)
Definition drawn_pos (q0 w : R) (dpi : nat) (p : R) : R := p * (w / INR dpi) + q0 - w / 2.
(** plot.py:187-190: twice the level of the surface is the largest value on the grid. *)
Definition is_level (r0 : R) (m : mat) (dpi : nat) (q : R * R * R) (h : R * R * R) (lv : R) : Prop :=
  let '(qx, qy, qw) := q in let '(wx, wy, ww) := h in
  let at_ (i j k : nat) := volume r0 m (grid_pos qx wx dpi (INR i)) (grid_pos qy wy dpi (INR j)) (grid_pos qw ww dpi (INR k)) qx qy qw in
  (forall i j k, (i <= dpi)%nat -> (j <= dpi)%nat -> (k <= dpi)%nat -> at_ i j k <= 2 * lv) /\
  exists i j k, (i <= dpi)%nat /\ (j <= dpi)%nat /\ (k <= dpi)%nat /\ at_ i j k = 2 * lv.
(** plot.py:187-198: a point of the picture.  Idealised: the vertices of marching cubes are taken to lie exactly on the surface of the
    given level, at indices between those of the grid. *)
Definition drawn (r0 : R) (m : mat) (dpi : nat) (q : R * R * R) (P : R * R * R) : Prop :=
  match half_width m 0, half_width m 1, half_width m 2 with
  | Some wx, Some wy, Some ww =>
    let '(qx, qy, qw) := q in
    exists lv p1 p2 p3, is_level r0 m dpi q (wx, wy, ww) lv /\
      0 <= p1 <= INR dpi /\ 0 <= p2 <= INR dpi /\ 0 <= p3 <= INR dpi /\
      volume r0 m (grid_pos qx wx dpi p1) (grid_pos qy wy dpi p2) (grid_pos qw ww dpi p3) qx qy qw = lv /\
      P = (drawn_pos qx wx dpi p1, drawn_pos qy wy dpi p2, drawn_pos qw ww dpi p3)
  | _, _, _ => False
  end.

(** ** The ellipses (plot.py:27-93) *)

Section Cache.
(** Points, spectrometer settings; the ellipses of a point depend on both and on the number of points per curve. *)
Context {point settings : Type} (eqb : list point -> list point -> bool).
(** What is stored: the points of the last calculation with the settings it used, and the ellipses with their points, settings and
    number of positions.  Simplified: points compare as lists; see C41 for numbers in place of arrays. *)
Record store := mkStore { now : settings; calculated : option (list point * settings); curves : option (list point * settings * nat) }.
(** A change of the spectrometer leaves what is stored alone. *)
Definition change (f : settings -> settings) (s : store) : store := mkStore (f (now s)) (calculated s) (curves s).
(** tas_instrument.py:949-953, 997 *)
Definition calc_resolution (p : list point) (s : store) : store := mkStore (now s) (Some (p, now s)) (curves s).
(** general.py:226-252 *)
Definition get_resolution (p : list point) (s : store) : store :=
  match calculated s with Some (q, _) => if eqb p q then s else calc_resolution p s | None => calc_resolution p s end.
(** general.py:20-151: the ellipses are those of the stored points and matrices. *)
Definition calc_projections (p : list point) (npts : nat) (s : store) : store :=
  let s := get_resolution p s in
  mkStore (now s) (calculated s) (match calculated s with Some (q, e) => Some (q, e, npts) | None => curves s end).
(** plot.py:43-53, 65-72: what is shown: the first ellipses, as many as there are matrices stored. *)
Definition plot_projections (p : list point) (npts : nat) (s : store) : store * res (list point * settings * nat) :=
  let s := match curves s, calculated s with
           | Some _, Some (q, _) => if eqb p q then s else calc_projections p npts s
           | _, _ => calc_projections p npts s
           end in
  (s, match curves s, calculated s with
      | Some (q, e, n), Some (r, _) => if Nat.ltb (List.length q) (List.length r) then Err IndexError else Ok (firstn (List.length r) q, e, n)
      | _, _ => Err AttributeError
      end).
End Cache.

(** plot.py:63-87: the range of an axis after drawing curves with the given ranges. *)
Fixpoint limits_from (l : list (R * R)) (first : bool) (lims : R * R) : R * R :=
  match l with
  | [] => lims
  | (lo, hi) :: l =>
    let a := if first then lo else if Rlt_dec lo (fst lims) then lo else fst lims in
    let b := if first then hi else if Rlt_dec (snd lims) hi then hi else snd lims in
    limits_from l false (a, b)
  end.
Definition axis_limits (l : list (R * R)) : R * R := limits_from l true (0, 0).

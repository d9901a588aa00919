(** Model of the resolution-matrix tools: projections, ellipses and widths
    (neutronpy/instrument/tools.py:365-518, neutronpy/instrument/general.py:20-149). *)
From Coq Require Import String List ZArith Reals Lia Bool.
From Verif Require Import Base.
Import ListNotations.
Local Open Scope R_scope.

(** A numpy matrix: entries by row and column.  The dimension is passed where it matters. *)
Definition mat : Type := nat -> nat -> R.

(** Index in the original array of entry [i] after np.delete(.., k): tools.py:391-394. *)
Definition skip (k i : nat) : nat := if Nat.ltb i k then i else S i.

(** tools.py:388-398 project_into_plane.  [None] where the diagonal entry is not positive (numpy: nan or inf).
    [b] is the sum of column and row [index]. *)
Definition project (k : nat) (r0 : R) (m : mat) : option (R * mat) :=
  if Rlt_dec 0 (m k k) then
    Some (sqrt (2 * PI / m k k) * r0,
          fun i j => m (skip k i) (skip k j) - 1 / (4 * m k k) * ((m (skip k i) k + m k (skip k i)) * (m (skip k j) k + m k (skip k j))))
  else None.

(** np.linspace(0, 2 pi, npts)[i]: tools.py:430. *)
Definition linspace (npts i : nat) : R := if Nat.leb npts 1 then 0 else 2 * PI * INR i / INR (npts - 1).

(** tools.py:427-434 ellipse: the points (x, y). *)
Definition ellipse (a b phi : R) (o : R * R) (npts : nat) : list (R * R) :=
  map (fun i => let t := linspace npts i in
         (a * cos t * cos phi - b * sin t * sin phi + fst o, a * cos t * sin phi + b * sin t * cos phi + snd o)) (seq 0 npts).

(** np.arctan2(y, x), without signed zeros. *)
Definition atan2 (y x : R) : R :=
  if Rlt_dec 0 x then atan (y / x)
  else if Rlt_dec x 0 then (if Rle_dec 0 y then atan (y / x) + PI else atan (y / x) - PI)
  else if Rlt_dec 0 y then PI / 2 else if Rlt_dec y 0 then - (PI / 2) else 0.

(** tools.py:511-512: rotation by theta of a 2 x 2 matrix, [S M S^T]. *)
Definition rotate2 (theta : R) (m : mat) : mat := fun i j =>
  let s := fun i j : nat => match i, j with 0%nat, 0%nat => cos theta | 0%nat, _ => sin theta | _, 0%nat => - sin theta | _, _ => cos theta end in
  s i 0%nat * (m 0%nat 0%nat * s j 0%nat + m 0%nat 1%nat * s j 1%nat) + s i 1%nat * (m 1%nat 0%nat * s j 0%nat + m 1%nat 1%nat * s j 1%nat).

(** tools.py:499-518 calculate_projection_hwhm; [None] where a square root is not a positive real. *)
Definition projection_hwhm (m : mat) : option (R * R * R) :=
  let theta := / 2 * atan2 (2 * m 0%nat 1%nat) (m 0%nat 0%nat - m 1%nat 1%nat) in
  let p := rotate2 theta m in
  if Rlt_dec 0 (p 0%nat 0%nat) then if Rlt_dec 0 (p 1%nat 1%nat) then
    Some (117741 / 100000 / sqrt (p 0%nat 0%nat), 117741 / 100000 / sqrt (p 1%nat 1%nat), theta)
  else None else None.

(** One of the curves of calc_projections, with its two full widths: general.py:71-84 and its five repetitions. *)
Definition curve (m : mat) (o : R * R) (npts : nat) : option (R * R * list (R * R)) :=
  match projection_hwhm m with
  | Some (a, b, theta) => Some (2 * a, 2 * b, ellipse a b theta o npts)
  | None => None
  end.
Definition projected (k : nat) (r0 : R) (m : mat) : option mat := match project k r0 m with Some (_, p) => Some p | None => None end.
Definition curve' (m : option mat) (o : R * R) (npts : nat) : option (R * R * list (R * R)) :=
  match m with Some m => curve m o npts | None => None end.

(** The 2 x 2 matrix of rows and columns [i], [j]. *)
Definition pick2 (m : mat) (i j : nat) : mat := fun a b => m (match a with 0%nat => i | _ => j end) (match b with 0%nat => i | _ => j end).

(** np.dot([h, k, l], o / norm(o)^2): general.py:78-81.  The norm is the plain one of the index triple. *)
Definition vec3 : Type := (R * R * R)%type.
Definition dot3 (x y : vec3) : R := let '(a, b, c) := x in let '(d, e, f) := y in a * d + b * e + c * f.
Definition along (q o : vec3) : R := dot3 q o / dot3 o o.

(** general.py:20-149 calc_projections at one point: the keys with the curve stored under each.
    Row and column 2 are removed first (general.py:69-72), so the vertical coordinate is set to zero. *)
Definition projections (a : mat) (r0 : R) (q o1 o2 : vec3) (w : R) (npts : nat) : list (string * option (R * R * list (R * R))) :=
  let b := fun i j => a (skip 2 i) (skip 2 j) in
  [("QxQy"%string, curve' (projected 2 r0 b) (along q o1, along q o2) npts);
   ("QxQySlice"%string, curve (pick2 a 0 1) (along q o1, along q o2) npts);
   ("QxW"%string, curve' (projected 1 r0 b) (along q o1, w) npts);
   ("QxWSlice"%string, curve (pick2 a 0 3) (along q o1, w) npts);
   ("QyW"%string, curve' (projected 0 r0 b) (along q o2, w) npts);
   ("QyWSlice"%string, curve (pick2 a 1 3) (along q o2, w) npts)].

(** tools.py:461-471 get_phonon_width.  [inv_t] is np.linalg.inv of the identity with last row [c] in closed form
    (checked against T in MatProps); a zero [c 3] is a singular matrix, [None]. *)
Definition t_rows (c : nat -> R) : mat := fun i j => if Nat.eqb i 3 then c j else if Nat.eqb i j then 1 else 0.
Definition inv_t (c : nat -> R) : mat := fun i j =>
  if Nat.eqb i 3 then (if Nat.eqb j 3 then / c 3%nat else - c j / c 3%nat) else if Nat.eqb i j then 1 else 0.
Definition sum4 (f : nat -> R) : R := f 0%nat + f 1%nat + f 2%nat + f 3%nat.
Definition congr (s m : mat) : mat := fun i j => sum4 (fun k => s k i * sum4 (fun l => m k l * s l j)).
Definition phonon_width (r0 : R) (m : mat) (c : nat -> R) : option (R * R) :=
  if Req_EM_T (c 3%nat) 0 then None else
  match project 0 r0 (congr (inv_t c) m) with
  | Some (r1, m1) => match project 0 r1 m1 with
    | Some (r2, m2) => match project 0 r2 m2 with
      | Some (r3, m3) => if Rlt_dec 0 (m3 0%nat 0%nat) then Some (r3, sqrt (8 * ln 2) / sqrt (m3 0%nat 0%nat)) else None
      | None => None end
    | None => None end
  | None => None end.

(** tools.py:437-458 get_bragg_widths: five numbers, all doubled at the end. *)
Definition bragg_widths (m : mat) : option (list R) :=
  match phonon_width 0 m (fun i => if Nat.eqb i 3 then 1 else 0) with
  | Some (_, v) =>
      let width i := sqrt (8 * ln 2) / sqrt (m i i) in
      Some (map (fun x => x * 2) [width 0%nat; width 1%nat; width 2%nat; v; width 3%nat])
  | None => None
  end.

(** tools.py:474-496 fproject for one matrix of the stack; [None] where numpy would give nan or inf. *)
Definition fproject (m : mat) (i : Z) : res (option R) :=
  let go (i v j : nat) :=
    let p00 := m i i - m i v ^ 2 / m v v in
    let p01 := m i j - m i v * m j v / m v v in
    let p11 := m j j - m j v ^ 2 / m v v in
    let h := p00 - p01 ^ 2 / p11 in
    if Req_EM_T (m v v) 0 then None else if Req_EM_T p11 0 then None else if Rlt_dec 0 h then Some (sqrt (2 * ln 2) / sqrt h) else None in
  if Z.eqb i 0 then Ok (go 0 2 1)%nat else if Z.eqb i 1 then Ok (go 1 0 2)%nat else if Z.eqb i 2 then Ok (go 2 0 1)%nat else Err ValueError.

(** The false-colour map of a collection of scans: /repo/neutronpy/data/scans.py:195-289.
    What matplotlib is told to draw is the result; figures, labels, colour maps and the choice between a linear and a logarithmic
    colour scale are left out. *)
From Coq Require Import Reals String List Bool Arith.
From Verif Require Import Base ScansModel.
Import ListNotations.
Local Open Scope R_scope.

(** A scan: its columns by name. *)
Definition scan := list (string * list R).
(** [scan.data[c]]. *)
Definition column (s : scan) (c : string) : res (list R) := match oget s c with Some l => Ok l | None => Err KeyError end.
Fixpoint rsum (l : list R) : R := match l with [] => 0 | x :: l => x + rsum l end.
(** [numpy.mean] of a column.  Simplified: the mean of an empty column is nan and the empty scan makes a later step fail, with
    IndexError when the colour limits are given and ValueError otherwise; the failure is put here. *)
Definition mean (given : bool) (l : list R) : res R :=
  match l with [] => Err (if given then IndexError else ValueError) | _ => Ok (rsum l / INR (List.length l)) end.

(** scans.py:239, 268: [(a[:-1] + a[1:]) / 2]. *)
Fixpoint mids (l : list R) : list R := match l with a :: (b :: _) as l' => (a + b) / 2 :: mids l' | _ => [] end.
(** scans.py:236-245 and 267-270: an array of zeros, one longer than [l]; the inner entries are set, then the first, from the
    second, then the last, from the one before it. *)
Definition edges (l : list R) : res (list R) :=
  match l with
  | [] => Err IndexError
  | x :: _ =>
    let inner := mids l in
    let second := nth 0 (inner ++ [0]) 0 in
    let first := 2 * x - second in
    let before := nth (List.length l - 1) (first :: inner) 0 in
    Ok (first :: inner ++ [2 * last l 0 - before])
  end.

(** scans.py:247-262: the colour limits. *)
Definition lmax (l : list R) : res R := match l with [] => Err ValueError | x :: l => Ok (fold_left Rmax l x) end.
Definition lmin (l : list R) : res R := match l with [] => Err ValueError | x :: l => Ok (fold_left Rmin l x) end.
Fixpoint limits (z : string) (d : odict scan) (lo hi : R) : res (R * R) :=
  match d with
  | [] => Ok (lo, hi)
  | (_, s) :: d =>
    bind (column s z) (fun l => bind (lmax l) (fun maxz => bind (lmin l) (fun minz =>
      let hi := if Rlt_dec hi maxz then maxz else hi in
      let lo := if Rlt_dec minz lo then if Rlt_dec 0 minz then minz else lo else lo in
      limits z d lo hi)))
  end.

(** A coloured rectangle: two corners in x, two in y, the value shown. *)
Record tile := mkTile { x0 : R; x1 : R; y0 : R; y1 : R; val : R }.
(** One row of rectangles between the given boundaries; matplotlib refuses a number of values that does not fit. *)
Fixpoint row (xs : list R) (ya yb : R) (zs : list R) : res (list tile) :=
  match xs, zs with
  | [_], [] => Ok []
  | xa :: ((xb :: _) as xs'), z :: zs' => bind (row xs' ya yb zs') (fun r => Ok (mkTile xa xb ya yb z :: r))
  | _, _ => Err TypeError
  end.
(** scans.py:264-281: every scan is drawn as two rows of rectangles, below and above its mean value of y. *)
Fixpoint rows (x z : string) (d : odict scan) (ys ms : list R) {struct d} : res (list (list tile * list tile)) :=
  match d, ys, ms with
  | [], _, _ => Ok []
  | (_, s) :: d, ya :: ((yb :: _) as ys'), m :: ms' =>
    bind (column s x) (fun mx => bind (column s z) (fun zv => bind (edges mx) (fun xs =>
      bind (row xs ya m zv) (fun lower => bind (row xs m yb zv) (fun upper => bind (rows x z d ys' ms') (fun r => Ok ((lower, upper) :: r)))))))
  | _, _, _ => Err IndexError
  end.
(** scans.py:195-289: the colour limits and, for every scan, its rectangles. *)
Definition pcolor (sc0 : scans scan) (x y z : string) (clims : option (R * R)) : res (R * R * list (list tile * list tile)) :=
  match sc sc0 with
  | None => Err RuntimeError
  | Some d =>
    bind (func_col (fun s => bind (column s y) (mean (match clims with Some _ => true | None => false end))) sc0) (fun mn => let means := fst mn in
      bind (edges means) (fun biny =>
        bind (match clims with Some c => Ok c | None => limits z d 1 0 end) (fun lh =>
          bind (rows x z d biny means) (fun ts => Ok (lh, ts)))))
  end.

(** Peak analysis: /repo/neutronpy/data/analysis.py.
    Simplification: the intensity column is given and finite (see OpsModel for how it is obtained);
    columns are rational; backgrounds are numbers (an ndarray under 'constant' is not modelled). *)
From Coq Require Import String List QArith Qabs Qround Bool Arith ZArith.
From Verif Require Import Base DataModel OpsModel.
Import ListNotations.
Local Open Scope string_scope.

(** What the analysis methods read: the columns in dictionary order, the column names of the
    coordinates ([Q_keys.values()], h first), the names of detector, monitor and time, and the
    intensity. *)
Record adata := mkA { a_cols : columns; a_q : list key; a_d : list key; a_int : list Q }.

(** ** Background (analysis.py:208-246) *)
Inductive bgspec :=
  | BgNone | BgNumber (q : Q) | BgConstant (q : Q) | BgPercent (q : Q) | BgMinimum | BgOther (t : string).

Fixpoint insert_q (x : Q) (l : list Q) : list Q :=
  match l with [] => [x] | y :: l' => if Qle_bool x y then x :: l else y :: insert_q x l' end.
(** [argsort] then indexing: the values in ascending order. *)
Definition sort_q (l : list Q) : list Q := fold_right insert_q [] l.

Definition qavg (l : list Q) : option Q :=
  match l with [] => None | _ => Some (fold_right Qplus 0 l / inject_Z (Z.of_nat (List.length l))) end.

(** analysis.py:237: [int(size * (value / 100.))], truncation towards zero; exact arithmetic instead
    of floats.  A negative percentage (Python: a negative slice bound) is not modelled and gives 0. *)
Definition n_lowest (size : nat) (v : Q) : nat := Z.to_nat (Qfloor (inject_Z (Z.of_nat size) * (v / 100))).

(** [min(self.intensity)]; ValueError on empty data. *)
Fixpoint list_min (x : Q) (l : list Q) : Q :=
  match l with [] => x | y :: l' => list_min (if Qle_bool x y then x else y) l' end.

(** [None] inside [Ok]: nan (mean of an empty array). *)
Definition estimate_background (inten : list Q) (b : bgspec) : res (option Q) :=
  match b with
  | BgNone => Ok (Some 0)
  | BgNumber q => Ok (Some q)
  | BgConstant q => Ok (Some q)
  | BgPercent v =>
      let nonneg := filter (fun x => Qle_bool 0 x) inten in
      Ok (qavg (firstn (n_lowest (List.length nonneg) v) (sort_q nonneg)))
  | BgMinimum => match inten with [] => Err ValueError | x :: l => Ok (Some (list_min x l)) end
  | BgOther _ => Ok (Some 0)
  end.

(** ** Selection (analysis.py:248-264) *)
(** [np.where(bounds)]: positions of the true entries, used as an index. *)
Fixpoint select {A} (b : list bool) (l : list A) : list A :=
  match b, l with
  | true :: b', x :: l' => x :: select b' l'
  | false :: b', _ :: l' => select b' l'
  | _, _ => []
  end.
(** The first coordinate column, [self.Q[:, 0]]. *)
Definition first_coord (d : adata) : list Q :=
  match a_q d with k :: _ => match cget (a_cols d) k with Some c => c | None => [] end | [] => [] end.
Definition get_bounds (d : adata) (bounds : option (list bool)) : list bool :=
  match bounds with
  | Some b => b
  | None => map (fun x => negb (Qeq_bool x 0)) (first_coord d)
  end.

(** analysis.py:266-283. *)
Definition get_keys (d : adata) (hkle : bool) : list key :=
  filter (fun k => if hkle then mem k (a_q d) else negb (mem k (a_d d))) (map fst (a_cols d)).

(** ** Moments (analysis.py:48-161) *)
(** numpy trapz.  Simplification: a single point gives 0 here; integrate makes a number of its coordinate, on which numpy raises ValueError (C115). *)
Fixpoint trapz (y x : list Q) : Q :=
  match y, x with
  | y0 :: ((y1 :: _) as y'), x0 :: ((x1 :: _) as x') => (x1 - x0) * (y0 + y1) / 2 + trapz y' x'
  | _, _ => 0
  end.

Definition acol (d : adata) (k : key) : list Q := match cget (a_cols d) k with Some c => c | None => [] end.
(** Selected column and selected net intensity. *)
Definition scol (d : adata) (bounds : option (list bool)) (k : key) : list Q := select (get_bounds d bounds) (acol d k).
Definition net (d : adata) (bounds : option (list bool)) (bg : Q) : list Q :=
  map (fun i => i - bg) (select (get_bounds d bounds) (a_int d)).

(** analysis.py:71-76; [bg] is the value of [estimate_background]. *)
Definition integrate (d : adata) (bounds : option (list bool)) (bg : Q) (hkle : bool) : Q :=
  fold_right Qplus 0 (map (fun k => trapz (net d bounds bg) (scol d bounds k)) (get_keys d hkle)).

(** analysis.py:104-107 (and 147-151): a weighted sum over all integration columns, each divided by
    [self.integrate(bounds, background)], where [hkle] takes its default True.  [None]: division by
    zero. *)
Definition moment (d : adata) (bounds : option (list bool)) (bg : Q) (hkle : bool) (f : list Q) : option Q :=
  let tot := integrate d bounds bg true in
  if Qeq_bool tot 0 then None
  else Some (fold_right Qplus 0
               (map (fun ki => trapz (zip_with Qmult f (net d bounds bg)) (scol d bounds ki) / tot) (get_keys d hkle))).

(** analysis.py:78-114, the entry for column [k]. *)
Definition position (d : adata) (bounds : option (list bool)) (bg : Q) (hkle : bool) (k : key) : option Q :=
  moment d bounds bg hkle (scol d bounds k).

(** analysis.py:116-161, the entry for column [k] without [fwhm]; the centre is taken from
    [position(..., hkle=False)]. *)
Definition width_sq (d : adata) (bounds : option (list bool)) (bg : Q) (hkle : bool) (k : key) : option Q :=
  match position d bounds bg false k with
  | None => None
  | Some p => moment d bounds bg hkle (map (fun x => (x - p) * (x - p)) (scol d bounds k))
  end.

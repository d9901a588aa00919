(** Spurious scattering: neutronpy/spurion.py:14-61 (aluminum) and 63-112 (currat_axe_peaks), over the reals.
    Python's integers and floats are kept apart where numpy does.  Rounding is not modelled. *)
From Coq Require Import List ZArith Reals Bool.
From Verif Require Import Base LinAlg LatticeModel EnergyModel TasModel AngleModel.
Import ListNotations.
Local Open Scope R_scope.

(** A number given by the user. *)
Inductive num : Type := NInt (z : Z) | NFloat (r : R).
Definition val (n : num) : R := match n with NInt z => IZR z | NFloat r => r end.
(** An array of three numbers: np.array of the list given for u or v (neutronpy/crystal/sample.py:122-124, 174-176, 184-186). *)
Inductive arr3 : Type := AI (a b c : Z) | AF (v : v3).
Definition floats (a : arr3) : v3 := match a with AI x y z => V (IZR x) (IZR y) (IZR z) | AF v => v end.
Definition vadd (a b : v3) : v3 := V (vx a + vx b) (vy a + vy b) (vz a + vz b).
Definition vscale (k : R) (a : v3) : v3 := V (k * vx a) (k * vy a) (k * vz a).

(** int() of a number, as np.insert casts: the part before the decimal point. *)
Definition trunc (r : R) : Z := if Rle_dec 0 r then Int_part r else (- Int_part (- r))%Z.

(** A position in reciprocal space and an energy. *)
Record hkle := mkH { h_q : v3; h_w : R }.

(** spurion.py:89-93.  np.insert casts the energy to the type of the array. *)
Definition corner (u v : arr3) (p : num * num * num) : hkle :=
  let '(qx, qy, e) := p in
  match u, v, qx, qy with
  | AI a b c, AI a' b' c', NInt x, NInt y =>
      mkH (V (IZR (a * x + a' * y)) (IZR (b * x + b' * y)) (IZR (c * x + c' * y)))
          (match e with NInt z => IZR z | NFloat r => IZR (trunc r) end)
  | _, _, _, _ => mkH (vadd (vscale (val qx) (floats u)) (vscale (val qy) (floats v))) (val e)
  end.

(** np.linspace(0, 1, n), spurion.py:96 *)
Definition fractions (n : Z) : res (list R) :=
  if Z.ltb n 0 then Err ValueError
  else if Z.eqb n 1 then Ok [0]
  else Ok (map (fun k => INR k / IZR (n - 1)) (seq 0 (Z.to_nat n))).
(** spurion.py:95-97 *)
Definition between (a b : hkle) (d : R) : hkle :=
  mkH (vadd (h_q a) (vscale d (vadd (h_q b) (vscale (-1) (h_q a))))) (h_w a + (h_w b - h_w a) * d).

(** An instrument as far as it is used here. *)
Record spect := mkSp { sp_c : consts; sp_t : tas; sp_l : lattice; sp_o1 : v3; sp_o2 : v3; sp_u : arr3; sp_v : arr3 }.
(** instrument.get_angles_and_Q(hkle)[0][2:4], spurion.py:101, 106 *)
Definition angles34 (i : spect) (p : hkle) : res (option R * option R) :=
  bind (get_angles_and_Q (sp_c i) (sp_t i) (sp_l i) (sp_o1 i) (sp_o2 i) (h_q p) (h_w p)) (fun r =>
  Ok (nth 2 (fst r) None, nth 3 (fst r) None)).
(** spurion.py:105: np.insert(peak, 3, 0), then h, k, l, w = hkle. *)
Definition peak_of (l : list R) : res hkle :=
  match l with
  | [h; k; m] => Ok (mkH (V h k m) 0)
  | [] | [_] | [_; _] => Err IndexError
  | _ => Err ValueError
  end.
(** spurion.py:110; a comparison with nan is false. *)
Definition near (tol : R) (x y : option R) : bool :=
  match x, y with Some a, Some b => if Rle_dec (Rabs (a - b)) tol then true else false | _, _ => false end.

(** spurion.py:63-112: the points for which a warning is given, one for each peak, in order.  What Python shows of repeated
    warnings is not modelled. *)
Definition currat_axe_peaks (i : spect) (from to : num * num * num) (npts : Z) (peaks : list (list R)) (tol : R) : res (list hkle) :=
  let p0 := corner (sp_u i) (sp_v i) from in
  let p1 := corner (sp_u i) (sp_v i) to in
  bind (fractions npts) (fun ds =>
  let scan := map (between p0 p1) ds in
  bind (map_res (angles34 i) scan) (fun angles =>
  bind (map_res (fun l => bind (peak_of l) (angles34 i)) peaks) (fun bragg =>
  Ok (flat_map (fun pa => flat_map (fun b => if near tol (fst b) (fst (snd pa)) && near tol (snd b) (snd (snd pa)) then [fst pa] else []) bragg)
        (combine scan angles))))).

(** spurion.py:31, 35, 38: the cell, the reflections and the divisors of the wavelength. *)
Definition al_cell : lattice := mkL (40495 / 10000) (40495 / 10000) (40495 / 10000) 90 90 90.
Definition al_reflections : list (Z * Z * Z) := [(1, 1, 1); (2, 0, 0); (2, 2, 0); (3, 1, 1)]%Z.
Definition hkl_of (p : Z * Z * Z) : v3 := let '(h, k, l) := p in V (IZR h) (IZR k) (IZR l).
(** One printed line without |F|^2: reflection, 2 theta (None is nan), divisor of the wavelength. *)
Definition ring : Type := ((Z * Z * Z) * option R * nat)%type.
(** spurion.py:48-53 *)
Definition rings (wavelength : R) : list ring :=
  flat_map (fun n => map (fun p => (p, get_two_theta al_cell (hkl_of p) (wavelength / INR n), n)) al_reflections) [3%nat; 2%nat; 1%nat].
(** argsort of twelve numbers, spurion.py:59-61, is an insertion sort; nan is put last. *)
Definition before (x y : option R) : bool :=
  match x, y with
  | Some a, Some b => if Rlt_dec a b then true else false
  | Some _, None => true
  | None, _ => false
  end.
Fixpoint insert (r : ring) (l : list ring) : list ring :=
  match l with
  | [] => [r]
  | x :: l' => if before (snd (fst r)) (snd (fst x)) then r :: l else x :: insert r l'
  end.
Definition sorted_rings (l : list ring) : list ring := fold_left (fun acc r => insert r acc) l [].
(** spurion.py:14-61; Energy(energy=energy).wavelength is nan at energy 0. *)
Definition aluminum (c : consts) (energy : R) : option (list ring) :=
  obind (ofl (wavelen (values_of c energy))) (fun w => Some (sorted_rings (rings w))).

(** The resolution matrix of a triple-axis spectrometer in the coordinate system of Q (Cooper-Nathans and Popovici):
    TripleAxisInstrument.calc_resolution_in_Q_coords, neutronpy/instrument/tas_instrument.py:543-929, over the reals.
    tau stands for the number GetTau returns (C48).  hcol and vcol have four entries each: other numbers of entries raise
    ValueError in numpy when the matrix G is put together.
    A point whose result is not finite, or needs a division by zero somewhere, is [None]; so is one with a singular matrix, where
    numpy raises LinAlgError and the call ends. *)
From Coq Require Import String List ZArith Reals.
From Verif Require Import Base MatInv.
From Verif Require MatModel.
Import ListNotations.
Local Open Scope R_scope.

(** Monochromator and analyzer; an absent attribute is [None]. *)
Record crystal := mkX { x_tau : R; x_mosaic : R; x_vmosaic : option R; x_dir : R;
  x_width : option R; x_height : option R; x_depth : option R; x_rv : option R; x_rh : option R }.
(** Guide, monitor and detector: width and height. *)
Record window := mkW { w_width : option R; w_height : option R }.
(** The shape attribute of the sample: one 3x3 array, or one array for each of a number of points. *)
Inductive shape := S2 (m : mat) | S3 (l : list mat).
Inductive method := MNum (z : Z) | MStr (s : string).
Record tas := mkTas {
  t_method : option method; t_moncor : option Z; t_hcol : vec; t_vcol : vec; t_mono : crystal; t_ana : crystal;
  t_thickness : option R; t_Q : option R; t_infin : option R; t_efixed : R; t_arms : option (list R); t_horifoc : option Z;
  t_guide : option window; t_monitor : option window; t_detector : option window;
  s_dir : R; s_mosaic : option R; s_vmosaic : option R; s_type : option string;
  s_width : option R; s_height : option R; s_depth : option R; s_shape : option shape }.

Definition opt (d : R) (o : option R) : R := match o with Some x => x | None => d end.
(** hasattr(.., name): the square over twelve, else 1. *)
Definition size (o : option R) : R := match o with Some x => x ^ 2 / 12 | None => 1 end.

(** tas_instrument.py:570-571 *)
Definition CONVERT1 : R := PI / 60 / 180 / sqrt (8 * ln 2).
Definition CONVERT2 : R := 2072 / 1000.

(** tas_instrument.py:580-587 *)
Definition meth (t : tas) : method := match t_method t with Some m => m | None => MNum 0 end.
Definition is_num (m : method) (z : Z) : bool := match m with MNum y => Z.eqb y z | MStr _ => false end.
Definition is_str (m : method) (s : string) : bool := match m with MNum _ => false | MStr y => String.eqb y s end.
(** The method as tested at 829, 853 and 881: spelt with a small letter. *)
Definition popovici (t : tas) : bool := is_num (meth t) 1 || is_str (meth t) "popovici".
Definition moncor (t : tas) : Z := match t_moncor t with Some m => m | None => 1%Z end.
Definition horifoc (t : tas) : Z := match t_horifoc t with Some h => h | None => (-1)%Z end.

(** tas_instrument.py:592-601: mosaics; at 594 the method is spelt with a capital letter. *)
Definition etam (t : tas) : R := x_mosaic (t_mono t) * CONVERT1.
Definition etamv (t : tas) : R :=
  match x_vmosaic (t_mono t) with
  | Some v => if (is_num (meth t) 1 || is_str (meth t) "Popovici")%bool then v * CONVERT1 else etam t
  | None => etam t
  end.
Definition etaa (t : tas) : R := x_mosaic (t_ana t) * CONVERT1.
Definition etaav (t : tas) : R := match x_vmosaic (t_ana t) with Some v => v * CONVERT1 | None => etaa t end.

(** tas_instrument.py:634-673 *)
Definition bshape (t : tas) : mat :=
  match t_guide t with Some w => diag [size (w_width w); size (w_height w)] | None => diag [1; 1] end.
Definition monitorshape (t : tas) : mat :=
  match t_monitor t with
  | Some w => let mw := size (w_width w) in diag [mw; match w_height w with Some h => h ^ 2 / 12 | None => mw end]
  | None => diag [1; 1]
  end.
Definition dshape (t : tas) : mat :=
  match t_detector t with Some w => diag [size (w_width w); size (w_height w)] | None => diag [1; 1] end.
Definition xshape (x : crystal) : mat := diag [size (x_depth x); size (x_width x); size (x_height x)].
(** tas_instrument.py:621-622, 675-688: the shape of the sample at each of [length] points. *)
Definition factor (t : tas) : R := match s_type t with Some s => if String.eqb s "cylindrical" then 16 else 12 | None => 12 end.
Definition sshapes (t : tas) (ind : nat) : option mat :=
  match s_width t, s_depth t, s_height t with
  | Some w, Some d, Some h => Some (diag [d ^ 2 / factor t; w ^ 2 / factor t; h ^ 2 / factor t])
  | _, _, _ => match s_shape t with
               | None => Some idm
               | Some (S2 m) => Some (fun i j => m i j / factor t)
               | Some (S3 l) => match nth_error l ind with Some m => Some (fun i j => m i j / factor t) | None => None end
               end
  end.
(** tas_instrument.py:690-695; only for the number 1, not for the name of the method.  Fewer than four lengths raise ValueError. *)
Definition lengths (t : tas) : res (R * R * R * R * R) :=
  match t_arms t with
  | Some l => if is_num (meth t) 1 then
                match l with
                | [L0; L1; L2; L3] => Ok (L0, L1, L2, L3, L1)
                | L0 :: L1 :: L2 :: L3 :: L1mon :: _ => Ok (L0, L1, L2, L3, L1mon)
                | _ => Err ValueError
                end
              else Ok (1, 1, 1, 1, 1)
  | None => Ok (1, 1, 1, 1, 1)
  end.

(** What the loop over points changes: divergences and radii of curvature; [v_ok] is false once a divergence is not finite. *)
Record loopvars := mkV { v_alpha : vec; v_beta : vec; v_mrh : R; v_mrv : R; v_arh : R; v_arv : R; v_ok : bool }.
(** tas_instrument.py:589-590, 697-717 *)
Definition start (t : tas) : loopvars :=
  mkV (fun i => if (Z.eqb (horifoc t) 1 && Nat.eqb i 2)%bool then t_hcol t i * CONVERT1 * sqrt (8 * ln 2 / 12) else t_hcol t i * CONVERT1)
      (fun i => t_vcol t i * CONVERT1)
      (opt (10 ^ 6) (x_rh (t_mono t))) (opt (10 ^ 6) (x_rv (t_mono t))) (opt (10 ^ 6) (x_rh (t_ana t))) (opt (10 ^ 6) (x_rv (t_ana t))) true.

(** tas_instrument.py:726-735: incident and final energy and wavevector. *)
Definition energies (t : tas) (w : R) : R * R :=
  if Rlt_dec 0 (opt (-1) (t_infin t)) then (t_efixed t, t_efixed t - w) else (t_efixed t + w, t_efixed t).
(** Imaginary part, up to sign, of numpy's arccos of a real number outside [-1, 1]. *)
Definition arccos_imag (x : R) : R := if Rle_dec (Rabs x) 1 then 0 else ln (Rabs x + sqrt (x ^ 2 - 1)).
(** tas_instrument.py:756-757: a negative divergence is the coating of a guide. *)
Definition guided (ki : R) (a : vec) : vec :=
  fun i => if Rlt_dec (a i) 0 then - a i * / 10 * 60 * (2 * PI / ki) / (427 / 1000) / sqrt 3 else a i.
Definition any_negative (a : vec) : bool := existsb (fun i => if Rlt_dec (a i) 0 then true else false) (seq 0 4).

(** The geometry of one point: wavevectors, Bragg angles, scattering angle, the direction of ki. *)
Record geom := mkG { g_q : R; g_ki : R; g_kf : R; g_tm : R; g_ta : R; g_2t : R; g_phi : R }.

(** tas_instrument.py:768-773 *)
Definition Gm (v : loopvars) : mat :=
  diag (map (fun x => 1 / x ^ 2) [v_alpha v 0%nat; v_alpha v 1%nat; v_beta v 0%nat; v_beta v 1%nat; v_alpha v 2%nat; v_alpha v 3%nat; v_beta v 2%nat; v_beta v 3%nat]).
Definition Fm (t : tas) : mat := diag (map (fun x => 1 / x ^ 2) [etam t; etamv t; etaa t; etaav t]).
(** tas_instrument.py:775-781 *)
Definition Am (g : geom) : mat :=
  let ki := g_ki g in let kf := g_kf g in
  mx [[ki / 2 / tan (g_tm g); - ki / 2 / tan (g_tm g); 0; 0; 0; 0; 0; 0];
      [0; ki; 0; 0; 0; 0; 0; 0];
      [0; 0; 0; ki; 0; 0; 0; 0];
      [0; 0; 0; 0; kf / 2 / tan (g_ta g); - kf / 2 / tan (g_ta g); 0; 0];
      [0; 0; 0; 0; kf; 0; 0; 0];
      [0; 0; 0; 0; 0; 0; kf; 0]].
(** tas_instrument.py:783-788 *)
Definition Cm (g : geom) : mat :=
  mx [[1 / 2; 1 / 2; 0; 0; 0; 0; 0; 0];
      [0; 0; 1 / (2 * sin (g_tm g)); - 1 / (2 * sin (g_tm g)); 0; 0; 0; 0];
      [0; 0; 0; 0; 1 / 2; 1 / 2; 0; 0];
      [0; 0; 0; 0; 0; 0; 1 / (2 * sin (g_ta g)); - 1 / (2 * sin (g_ta g))]].
(** tas_instrument.py:790-794 *)
Definition Bm (g : geom) : mat :=
  let f := g_phi g in let e := g_phi g - g_2t g in
  mx [[cos f; sin f; 0; - cos e; - sin e; 0];
      [- sin f; cos f; 0; sin e; - cos e; 0];
      [0; 0; 1; 0; 0; - 1];
      [2 * CONVERT2 * g_ki g; 0; 0; - 2 * CONVERT2 * g_kf g; 0; 0]].
(** Block diagonal matrices; the first block has [n] rows. *)
Definition blk (n : nat) (A B : mat) : mat :=
  fun i j => if (Nat.ltb i n && Nat.ltb j n)%bool then A i j else if (Nat.leb n i && Nat.leb n j)%bool then B (i - n)%nat (j - n)%nat else 0.
(** tas_instrument.py:759-766: the shape of the sample, rotated. *)
Definition rotated (g : geom) (sshape : mat) : mat :=
  let psi := g_2t g / 2 - g_phi g in
  let rot := mx [[cos psi; sin psi; 0]; [- sin psi; cos psi; 0]; [0; 0; 1]] in
  mul 3 (mul 3 rot sshape) (tr rot).
(** tas_instrument.py:797 *)
Definition Sinv (t : tas) (g : geom) (sshape : mat) : mat :=
  blk 2 (bshape t) (blk 3 (xshape (t_mono t)) (blk 3 (rotated g sshape) (blk 3 (xshape (t_ana t)) (dshape t)))).
(** tas_instrument.py:800-813 *)
Definition Tm (L0 L1 L2 L3 : R) (v : loopvars) (g : geom) : mat :=
  let tm := g_tm g in let ta := g_ta g in let ts := g_2t g / 2 in
  mx [[- 1 / (2 * L0); 0; cos tm * (1 / L1 - 1 / L0) / 2; sin tm * (1 / L0 + 1 / L1 - 2 / (v_mrh v * sin tm)) / 2; 0;
       sin ts / (2 * L1); cos ts / (2 * L1); 0; 0; 0; 0; 0; 0];
      [0; - 1 / (2 * L0 * sin tm); 0; 0; (1 / L0 + 1 / L1 - 2 * sin tm / v_mrv v) / (2 * sin tm); 0; 0;
       - 1 / (2 * L1 * sin tm); 0; 0; 0; 0; 0];
      [0; 0; 0; 0; 0; sin ts / (2 * L2); - cos ts / (2 * L2); 0; cos ta * (1 / L3 - 1 / L2) / 2;
       sin ta * (1 / L2 + 1 / L3 - 2 / (v_arh v * sin ta)) / 2; 0; 1 / (2 * L3); 0];
      [0; 0; 0; 0; 0; 0; 0; - 1 / (2 * L2 * sin ta); 0; 0;
       (1 / L2 + 1 / L3 - 2 * sin ta / v_arv v) / (2 * sin ta); 0; - 1 / (2 * L3 * sin ta)]].
(** tas_instrument.py:815-826 *)
Definition Dm (L0 L1 L2 L3 : R) (g : geom) : mat :=
  let tm := g_tm g in let ta := g_ta g in let ts := g_2t g / 2 in
  mx [[- 1 / L0; 0; - cos tm / L0; sin tm / L0; 0; 0; 0; 0; 0; 0; 0; 0; 0];
      [0; 0; cos tm / L1; sin tm / L1; 0; sin ts / L1; cos ts / L1; 0; 0; 0; 0; 0; 0];
      [0; - 1 / L0; 0; 0; 1 / L0; 0; 0; 0; 0; 0; 0; 0; 0];
      [0; 0; 0; 0; - 1 / L1; 0; 0; 1 / L1; 0; 0; 0; 0; 0];
      [0; 0; 0; 0; 0; sin ts / L2; - cos ts / L2; 0; - cos ta / L2; sin ta / L2; 0; 0; 0];
      [0; 0; 0; 0; 0; 0; 0; 0; cos ta / L3; sin ta / L3; 0; 1 / L3; 0];
      [0; 0; 0; 0; 0; 0; 0; - 1 / L2; 0; 0; 1 / L2; 0; 0];
      [0; 0; 0; 0; 0; 0; 0; 0; 0; 0; - 1 / L3; 0; 1 / L3]].

Definition ob {A B} (o : option A) (f : A -> option B) : option B := match o with Some a => f a | None => None end.

(** tas_instrument.py:829-832: the 8x8 matrix whose inverse is the covariance of the divergences: H + G. *)
Definition HG_popovici (t : tas) (v : loopvars) (L0 L1 L2 L3 : R) (g : geom) (sshape : mat) : option mat :=
  ob (minv 13 (Sinv t g sshape)) (fun S =>
  let T := Tm L0 L1 L2 L3 v g in let D := Dm L0 L1 L2 L3 g in
  let K := addm S (mul 4 (tr T) (mul 4 (Fm t) T)) in
  ob (minv 13 K) (fun Ki =>
  ob (minv 8 (mul 13 D (mul 13 Ki (tr D)))) (fun H => Some (addm H (Gm v))))).
(** tas_instrument.py:834 *)
Definition H_cooper (t : tas) (v : loopvars) (g : geom) : mat :=
  addm (Gm v) (mul 4 (tr (Cm g)) (mul 4 (Fm t) (Cm g))).
(** tas_instrument.py:837-841: the analyzer block of a horizontally focusing analyzer is put into the inverse. *)
Definition focused (t : tas) (v : loopvars) (g : geom) (N : mat) : mat :=
  fun i j => if (Nat.leb 3 i && Nat.ltb i 5 && Nat.leb 3 j && Nat.ltb j 5)%bool
             then mx [[(tan (g_ta g) / (etaa t * g_kf g)) ^ 2; 0]; [0; (1 / (g_kf g * v_alpha v 2%nat)) ^ 2]] (i - 3)%nat (j - 3)%nat
             else N i j.
(** tas_instrument.py:829-841: the covariance of (ki, kf), and the 8x8 matrix used in the prefactor. *)
Definition Ninv (t : tas) (v : loopvars) (Ls : R * R * R * R) (g : geom) (sshape : mat) : option (mat * mat) :=
  let '(L0, L1, L2, L3) := Ls in
  if popovici t then
    ob (HG_popovici t v L0 L1 L2 L3 g sshape) (fun HG =>
    ob (minv 8 HG) (fun I => Some (mul 8 (Am g) (mul 8 I (tr (Am g))), HG)))
  else
    ob (minv 8 (H_cooper t v g)) (fun I =>
    let N := mul 8 (Am g) (mul 8 I (tr (Am g))) in
    if Z.ltb 0 (horifoc t) then
      ob (minv 6 N) (fun N1 => ob (minv 6 (focused t v g N1)) (fun N2 => Some (N2, H_cooper t v g)))
    else Some (N, H_cooper t v g)).
(** tas_instrument.py:843 *)
Definition Minv (g : geom) (N : mat) : mat := mul 6 (Bm g) (mul 6 N (tr (Bm g))).

(** tas_instrument.py:862-888: flux on the monitor. *)
Definition Rmon (t : tas) (v : loopvars) (L0 L1mon : R) (g : geom) : option R :=
  let tm := g_tm g in
  let f := Fm t in let c := Cm g in
  let gm := Gm v in
  let tt := mx [[- 1 / (2 * L0); 0; cos tm * (1 / L1mon - 1 / L0) / 2; sin tm * (1 / L0 + 1 / L1mon - 2 / (v_mrh v * sin tm)) / 2; 0; 0; 1 / (2 * L1mon)];
                [0; - 1 / (2 * L0 * sin tm); 0; 0; (1 / L0 + 1 / L1mon - 2 * sin tm / v_mrv v) / (2 * sin tm); 0; 0]] in
  let d := mx [[- 1 / L0; 0; - cos tm / L0; sin tm / L0; 0; 0; 0];
               [0; 0; cos tm / L1mon; sin tm / L1mon; 0; 0; 1 / L1mon];
               [0; - 1 / L0; 0; 0; 1 / L0; 0; 0];
               [0; 0; 0; 0; - 1 / L1mon; 0; 0]] in
  ob (minv 7 (blk 2 (bshape t) (blk 3 (xshape (t_mono t)) (monitorshape t)))) (fun s => (* computed by every method *)
  ob (if popovici t then
        ob (minv 7 (addm s (mul 2 (tr tt) (mul 2 f tt)))) (fun ki =>
        ob (minv 4 (mul 7 d (mul 7 ki (tr d)))) (fun h => Some (addm h gm)))
      else Some (addm gm (mul 2 (tr c) (mul 2 f c)))) (fun h =>
  ob (detm 2 f) (fun df => ob (detm 4 h) (fun dh =>
  Some (g_ki g ^ 3 / tan tm * (2 * PI) ^ 2 / (8 * PI * sin tm) * sqrt (df / dh)))))).

(** tas_instrument.py:911-924: reflectivity of a thick analyzer. *)
Definition reflectivity (t : tas) (v : loopvars) (g : geom) (KT KQ : R) : R :=
  let taua := x_tau (t_ana t) in
  let toa := taua / 2 / sqrt (g_kf g ^ 2 - (taua / 2) ^ 2) in
  let smallest := if Rlt_dec (v_alpha v 2%nat) (v_alpha v 3%nat) then v_alpha v 2%nat else v_alpha v 3%nat in
  let dth k := INR (S k) / 200 * sqrt (2 * ln 2) * smallest in
  let wdth k := exp (- dth k ^ 2 / 2 / etaa t ^ 2) in
  let sdth k := KT * (KQ * toa) * wdth k / etaa t / sqrt (2 * PI) in
  sum 200 (fun k => if Req_EM_T (sdth k) 0 then 0 else 1 / (1 + 1 / sdth k)) / sum 200 wdth.

(** Sample mosaic, tas_instrument.py:900-908: prefactor and resolution matrix. *)
Definition with_mosaic (t : tas) (q : R) (Mi : mat) (M : mat) (R0 : R) : option (R * mat) :=
  match s_mosaic t with
  | None => Some (R0, M)
  | Some m =>
      let etas := m * CONVERT1 in
      let etasv := match s_vmosaic t with Some x => x * CONVERT1 | None => etas end in
      let R0 := R0 / sqrt ((1 + (q * etas) ^ 2 * M 2%nat 2%nat) * (1 + (q * etasv) ^ 2 * M 1%nat 1%nat)) in
      ob (minv 4 (addm Mi (diag [0; q ^ 2 * etas ^ 2; q ^ 2 * etasv ^ 2; 0]))) (fun M' => Some (R0, M'))
  end.

(** The prefactor before the sample mosaic, tas_instrument.py:849-896. *)
Definition prefactor (t : tas) (v : loopvars) (L0 L1mon : R) (g : geom) (HG M : mat) : option R :=
  let Rm := g_ki g ^ 3 / tan (g_tm g) in
  let Ra := g_kf g ^ 3 / tan (g_ta g) in
  let R0 := Rm * Ra * (2 * PI) ^ 4 / (64 * PI ^ 2 * sin (g_tm g) * sin (g_ta g)) in
  ob (detm 4 (Fm t)) (fun df => ob (detm 8 HG) (fun dh =>
  let R0 := R0 * sqrt (df / dh) in
  ob (if Z.eqb (moncor t) 1 then ob (Rmon t v L0 L1mon g) (fun m => Some (R0 / m * g_ki g)) else Some R0) (fun R0 =>
  ob (detm 4 M) (fun dM => Some (R0 / (2 * PI) ^ 2 * sqrt dM * g_kf g / g_ki g))))).

(** One point after the angles are known, tas_instrument.py:759-927. *)
Definition resolution_at (t : tas) (v : loopvars) (Ls : R * R * R * R * R) (g : geom) (sshape : mat) : option (R * mat) :=
  let '(L0, L1, L2, L3, L1mon) := Ls in
  ob (minv 13 (Sinv t g sshape)) (fun _ => (* S is computed by every method: a vanishing size raises LinAlgError *)
  ob (Ninv t v (L0, L1, L2, L3) g sshape) (fun '(N, HG) =>
  let Mi := Minv g N in
  ob (minv 4 Mi) (fun M =>
  ob (prefactor t v L0 L1mon g HG M) (fun R0 =>
  ob (with_mosaic t (g_q g) Mi M R0) (fun '(R0, M) =>
  match t_thickness t, t_Q t with
  | Some KT, Some KQ => Some (R0 * reflectivity t v g KT KQ, M)
  | _, _ => Some (R0, M)
  end))))).

Definition between (x : R) : bool := if Rlt_dec 0 x then if Rlt_dec x 1 then true else false else false.
(** No division by zero in the matrices G, F, A, C, T, D. *)
Definition nonzero (t : tas) (v : loopvars) (Ls : R * R * R * R * R) : bool :=
  let '(L0, L1, L2, L3, L1mon) := Ls in
  forallb (fun x => if Req_EM_T x 0 then false else true)
    (map (v_alpha v) (seq 0 4) ++ map (v_beta v) (seq 0 4) ++ [etam t; etamv t; etaa t; etaav t; L0; L1; L2; L3; L1mon; v_mrh v; v_mrv v; v_arh v; v_arv v]).

(** One pass of the loop, tas_instrument.py:723-927. *)
Definition point (t : tas) (Ls : R * R * R * R * R) (v : loopvars) (ind : nat) (q w : R) : res (loopvars * option (R * mat)) :=
  match sshapes t ind with
  | None => Err IndexError
  | Some sh =>
  let '(ei, ef) := energies t w in
  let sm := x_dir (t_mono t) in let sa := x_dir (t_ana t) in
  let curved a b ok := mkV a b (v_mrh v * sm) (v_mrv v * sm) (v_arh v * sa) (v_arv v * sa) ok in
  if Rlt_dec 0 ei then
    let ki := sqrt (ei / CONVERT2) in
    let v' := curved (guided ki (v_alpha v)) (guided ki (v_beta v)) (v_ok v) in
    if Rlt_dec ef 0 then Ok (v', None) (* kf and everything after it is nan *)
    else
      let kf := sqrt (ef / CONVERT2) in
      if Req_EM_T kf 0 then (if Req_EM_T (ki ^ 2) (q ^ 2) then Ok (v', None) else Err ScatteringTriangleError)
      else
        let x := (ki ^ 2 + kf ^ 2 - q ^ 2) / (2 * ki * kf) in
        if Rlt_dec (/ 10 ^ 12) (arccos_imag x) then Err ScatteringTriangleError
        else
          let s2theta := acos x * s_dir t in
          let xm := x_tau (t_mono t) / (2 * ki) in let xa := x_tau (t_ana t) / (2 * kf) in
          let g := mkG q ki kf (asin xm * sm) (asin xa * sa) s2theta (MatModel.atan2 (- kf * sin s2theta) (ki - kf * cos s2theta)) in
          (* for xm, xa not between 0 and 1 the Bragg angles are nan or 0, or their tangent is infinite *)
          Ok (v', if (between xm && between xa && v_ok v && nonzero t v' Ls)%bool then resolution_at t v' Ls g sh else None)
  else (* ki is nan or 0 *)
    if (if Req_EM_T ei 0 then if Rle_dec 0 ef then if Req_EM_T (ef / CONVERT2) (q ^ 2) then false else true else false else false)
    then Err ScatteringTriangleError
    else Ok (curved (v_alpha v) (v_beta v) (v_ok v && negb (any_negative (v_alpha v) || any_negative (v_beta v)))%bool, None)
  end.
(** The loop, tas_instrument.py:723-927. *)
Fixpoint loop (t : tas) (Ls : R * R * R * R * R) (v : loopvars) (ind : nat) (l : list (R * R)) : res (list (option (R * mat))) :=
  match l with
  | [] => Ok []
  | (q, w) :: r => bind (point t Ls v ind q w) (fun '(v, x) => bind (loop t Ls v (S ind) r) (fun l => Ok (x :: l)))
  end.
(** tas_instrument.py:543-929, after _CleanArgs. *)
Definition calc_in_Q (t : tas) (points : list (R * R)) : res (list (option (R * mat))) :=
  bind (lengths t) (fun Ls => loop t Ls (start t) 0 points).

(** The text describing the last resolution calculation of a triple-axis spectrometer: PlotInstrument.description_string,
    /repo/neutronpy/instrument/plot.py:419-485.  The text is kept as the numbers printed.  Left out: date and time, the lines that repeat
    attributes of the instrument unchanged (spacings, mosaics, directions, collimation, sample, orientation), the time-of-flight branch. *)
From Coq Require Import String List ZArith Reals.
From Verif Require Import Base LinAlg LatticeModel EnergyModel TasModel AngleModel.
From Verif Require MatModel.
Import ListNotations.
Local Open Scope R_scope.

(** What calc_resolution leaves behind (tas_instrument.py:949-953, 997): the points, with the matrix and the prefactor of each. *)
Record last_calc := mkLast { lc_points : list (v3 * R); lc_RMS : list MatInv.mat; lc_R0 : list R }.

(** The integer nearest to x, ties to the even one. *)
Definition nearest (x : R) : Z :=
  let f := Int_part x in
  let r := x - IZR f in
  if Rlt_dec r (1 / 2) then f else if Rlt_dec (1 / 2) r then (f + 1)%Z else if Z.even f then f else (f + 1)%Z.
(** '{:.nf}'.format(x): the number printed, as a multiple of 10^-n. *)
Definition fixed (n : nat) (x : R) : Z := nearest (x * 10 ^ n).

Record description := mkDescr {
  d_method : string;
  d_position : list (v3 * R);
  d_matrix : list (list Z); (* four decimals, of the matrix over 10^4 *)
  d_volume : option Z; (* six decimals *)
  d_prefactor : Z; (* three decimals *)
  d_widths : option (Z * Z * Z * Z * Z); (* dQ_1, dQ_2, dE, dQ_z, V; three decimals *)
  d_kfix : option Z; (* three decimals *)
  d_FX : Z;
  d_angles : list (option Z) (* two decimals *) }.

(** plot.py:424-427: a list of two names indexed by the method; without the attribute the first. *)
Definition method_name (t : tas) : res string :=
  match t_method t with
  | None => Ok "Cooper-Nathans"%string
  | Some (MStr _) => Err TypeError
  | Some (MNum z) =>
      if Z.eqb z 0 then Ok "Cooper-Nathans"%string else if Z.eqb z 1 then Ok "Popovici"%string
      else if Z.eqb z (-1) then Ok "Popovici"%string else if Z.eqb z (-2) then Ok "Cooper-Nathans"%string else Err IndexError
  end.
(** plot.py:430-433 *)
Definition FX (t : tas) : Z :=
  match t_infin t with
  | None => 2
  | Some i => (if Req_EM_T i (-1) then 2 else 0) + (if Req_EM_T i 1 then 1 else 0)
  end.
(** np.linalg.det for four rows. *)
Definition minor (m : MatInv.mat) (a b c : nat) : R :=
  m 1%nat a * (m 2%nat b * m 3%nat c - m 2%nat c * m 3%nat b) - m 1%nat b * (m 2%nat a * m 3%nat c - m 2%nat c * m 3%nat a) +
  m 1%nat c * (m 2%nat a * m 3%nat b - m 2%nat b * m 3%nat a).
Definition determinant (m : MatInv.mat) : R :=
  m 0%nat 0%nat * minor m 1 2 3 - m 0%nat 1%nat * minor m 0 2 3 + m 0%nat 2%nat * minor m 0 1 3 - m 0%nat 3%nat * minor m 0 1 2.
(** plot.py:444, 459: (2 pi)^2 / sqrt(det NP), doubled in the text.  nan for a negative and inf for a vanishing determinant are [None]. *)
Definition printed_volume (m : MatInv.mat) : option R :=
  if Rlt_dec 0 (determinant m) then Some (2 * ((2 * PI) ^ 2 / sqrt (determinant m))) else None.
(** plot.py:454-457: one line for each column. *)
Definition matrix_lines (m : MatInv.mat) : list (list Z) := map (fun j => map (fun i => fixed 4 (m i j / 10000)) (seq 0 4)) (seq 0 4).
(** plot.py:462-464 *)
Definition widths (m : MatInv.mat) : option (Z * Z * Z * Z * Z) :=
  match MatModel.bragg_widths m with
  | Some w => let p i := fixed 3 (nth i w 0) in Some (p 0%nat, p 1%nat, p 4%nat, p 2%nat, p 3%nat)
  | None => None
  end.

(** plot.py:419-485, 533; before any calculation self.RMS does not exist (435). *)
Definition describe (c : consts) (t : tas) (l : lattice) (o1 o2 : v3) (s : option last_calc) : res description :=
  bind (method_name t) (fun name =>
  match s with
  | None => Err AttributeError
  | Some (mkLast ((hkl, w) :: ps) (m :: ms) (r :: rs)) =>
      bind (get_angles_and_Q c t l o1 o2 hkl w) (fun a =>
      Ok (mkDescr name ((hkl, w) :: ps) (matrix_lines m) (option_map (fixed 6) (printed_volume m)) (fixed 3 r) (widths m)
            (option_map (fixed 3) (ofl (wavevec (values_of c (t_efixed t))))) (FX t) (map (option_map (fixed 2)) (fst a))))
  | Some _ => Err IndexError
  end).

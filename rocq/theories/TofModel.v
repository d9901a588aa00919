(** Time-of-flight resolution: /repo/neutronpy/instrument/tof_instrument.py.
    Real arithmetic; a quantity that is nan or infinite is a value of its own.  The printing of intermediate results is
    left out. *)
From Coq Require Import String List ZArith Reals.
From Verif Require Import Base LinAlg EnergyModel LatticeModel KinModel MatModel MatInv CompModel.
Import ListNotations.
Local Open Scope bool_scope.
Local Open Scope R_scope.

(** The attributes of the sample the calculation reads (sample.py:118-141); mosaic, vmosaic and distance may be missing. *)
Record sample := mkSmp { s_cell : lattice; s_u : v3; s_v : v3; s_mosaic : option R; s_vmosaic : option R; s_distance : option R }.
(** detector.py:62-75. *)
Record detector := mkDet { d_shape : string; d_height : list R; d_radius : R; d_hpixels : R; d_vpixels : R; d_tau : R; d_orientation : option string }.
(** Attributes of the instrument that replace computed ones, set by keyword (tof_instrument.py:110-111) or assignment. *)
Record overrides := mkOv { o_tau_p : option R; o_tau_m : option R; o_tau_d : option R; o_l_pm : option R; o_l_ms : option R; o_l_sd : option R;
  o_sl_pm : option R; o_sl_ms : option R; o_sl_sd : option R; o_sti : option R; o_sfi : option R; o_st : option R; o_sf : option R }.
Definition no_overrides : overrides := mkOv None None None None None None None None None None None None None.
Record tof := mkTof { f_ei : R; f_choppers : list chopper; f_sample : sample; f_detector : detector; f_guides : list guide;
                      f_theta_i : R; f_phi_i : R; f_over : overrides }.
(** The constants of /repo/neutronpy/constants.py:97-99: mass in kg (tof_instrument.py:207), hbar, elementary charge.  The class Energy
    uses scipy's own. *)
Record constants := mkK { k_m : R; k_hbar : R; k_e : R }.

(** ** Construction: tof_instrument.py:78-111 *)
(** sorted(choppers, key=lambda x: x.distance): stable. *)
Fixpoint insert (c : chopper) (l : list chopper) : list chopper :=
  match l with
  | [] => [c]
  | x :: r => if Rlt_dec (ch_distance x) (ch_distance c) then x :: insert c r else c :: l
  end.
Fixpoint sorted (l : list chopper) : list chopper := match l with [] => [] | c :: r => insert c (sorted r) end.
(** The argument: omitted (or an empty list), a list, or a single chopper. *)
Inductive choppers_arg := NoChoppers | ChopperList (l : list chopper) | OneChopper (c : chopper).
Definition p_chopper : chopper := mkChop 0 60 5 (Num 10) (Str "disk") false None None (Some 38).
Definition m_chopper : chopper := mkChop 2500 240 2 (Num 10) (Str "disk") true None None (Some 6).
Definition choppers_of (a : choppers_arg) : list chopper :=
  match a with
  | NoChoppers | ChopperList [] => [p_chopper; m_chopper]
  | ChopperList l => sorted l
  | OneChopper c => [c]
  end.
Definition default_sample : sample := mkSmp (mkL 6 7 8 90 90 90) (V 1 0 0) (V 0 1 0) None None (Some 3600).
Definition default_detector : detector := mkDet "cylindrical" [-15; 15] 300 (1 / 10) 256 (1 / 10) None.
Definition item {A} (l : list A) (i : nat) : res A := match nth_error l i with Some x => Ok x | None => Err IndexError end.
Definition attr {A} (o : option A) : res A := match o with Some x => Ok x | None => Err AttributeError end.
(** guides=None or an empty list builds the two default guides from the distances. *)
Definition make (ei : R) (ch : choppers_arg) (sm : option sample) (de : option detector) (gu : list guide) (theta_i phi_i : R) (ov : overrides) : res tof :=
  let cs := choppers_of ch in
  let s := match sm with Some s => s | None => default_sample end in
  let d := match de with Some d => d | None => default_detector end in
  bind (match gu with
        | [] => bind (item cs 1) (fun c1 => bind (item cs 0) (fun c0 =>
                bind (attr (s_distance s)) (fun x =>
                Ok [mkGuide 1 (ch_distance c1 - ch_distance c0) 15 15; mkGuide 1 (x - ch_distance c1) 15 15])))
        | _ => Ok gu
        end) (fun gs => Ok (mkTof ei cs s d gs theta_i phi_i ov)).

(** ** Parameters: tof_instrument.py:167-186 *)
(** getattr(self, name, default): the default is computed whether or not the attribute is there. *)
Definition over (o : option R) (d : res fl) : res fl := bind d (fun x => Ok (match o with Some y => Fin y | None => x end)).
Definition scale (k : R) (x : res fl) : res fl := bind x (fun x => Ok (fmap (fun r => r * k) x)).
Definition maxr (x y : R) : R := if Rle_dec x y then y else x.
Definition maximum (l : list R) : res R := match l with [] => Err ValueError | x :: r => Ok (fold_left maxr r x) end.
Definition flmul (x y : fl) : fl := match x, y with Fin a, Fin b => Fin (a * b) | _, _ => NaN end.
(** Division of numpy numbers. *)
Definition ndiv (x y : R) : fl := if Req_EM_T y 0 then (if Req_EM_T x 0 then NaN else Inf) else Fin (x / y).
(** np.max of two values, the second perhaps not finite; only an infinite positive or a nan arise with the angles of a detector. *)
Definition flmax (x : R) (y : fl) : fl := fmap (maxr x) y.
(** The thirteen parameters in the order of the code: times in seconds, lengths in metres, angles in radians. *)
Definition parameters (c : consts) (I : tof) : res (list fl) :=
  let o := f_over I in let s := f_sample I in let d := f_detector I in let E := values_of c (f_ei I) in
  let mosaic := match s_mosaic s with Some m => m | None => 60 end in
  let vmosaic := match s_vmosaic s with Some m => m | None => 60 end in
  bind (scale (/ 10 ^ 6) (over (o_tau_p o) (bind (item (f_choppers I) 0) tau))) (fun tau_p =>
  bind (scale (/ 10 ^ 6) (over (o_tau_m o) (bind (item (f_choppers I) 1) tau))) (fun tau_m =>
  bind (scale (/ 10 ^ 6) (over (o_tau_d o) (Ok (Fin (d_tau d))))) (fun tau_d =>
  bind (scale (/ 10 ^ 2) (over (o_l_pm o) (bind (item (f_choppers I) 0) (fun c0 => bind (item (f_choppers I) 1) (fun c1 =>
         Ok (Fin (Rabs (ch_distance c0 - ch_distance c1)))))))) (fun l_pm =>
  bind (scale (/ 10 ^ 2) (over (o_l_ms o) (bind (attr (s_distance s)) (fun x => Ok (Fin x))))) (fun l_ms =>
  bind (scale (/ 10 ^ 2) (over (o_l_sd o) (Ok (Fin (d_radius d))))) (fun l_sd =>
  bind (scale (/ 10 ^ 2) (over (o_sl_pm o) (bind (item (f_guides I) 0) (fun g => Ok (Fin (sigma_l g)))))) (fun sl_pm =>
  bind (scale (/ 10 ^ 2) (over (o_sl_ms o) (bind (item (f_guides I) 1) (fun g => Ok (Fin (sigma_l g)))))) (fun sl_ms =>
  bind (scale (/ 10 ^ 2) (over (o_sl_sd o) (Ok (fmap (fun x => x - d_radius d) (ndiv (d_radius d) (cos (rad (mosaic / 60)))))))) (fun sl_sd =>
  bind (scale (PI / 180) (over (o_sti o) (bind (item (f_guides I) 1) (fun g => Ok (flmul (sigma_theta g) (wavelen E)))))) (fun sti =>
  bind (scale (PI / 180) (over (o_sfi o) (bind (item (f_guides I) 1) (fun g => Ok (flmul (sigma_phi g) (wavelen E)))))) (fun sfi =>
  bind (scale (PI / 180) (over (o_st o) (Ok (Fin (maxr (mosaic / 60) (d_hpixels d)))))) (fun st =>
  bind (scale (PI / 180) (over (o_sf o) (bind (maximum (d_height d)) (fun h => Ok (flmax (vmosaic / 60) (ndiv h (d_vpixels d))))))) (fun sf =>
  Ok [tau_p; tau_m; tau_d; l_pm; l_ms; l_sd; sl_pm; sl_ms; sl_sd; sti; sfi; st; sf]))))))))))))).

(** ** The covariance: tof_instrument.py:207-304 *)
(** A flight: speeds, lengths, directions, whether the detector is spherical, and the nine standard deviations. *)
Record flight := mkF { w_vi : R; w_vf : R; w_lpm : R; w_lms : R; w_lsd : R; w_ti : R; w_fi : R; w_t : R; w_f : R; w_sph : bool; w_sig : list R }.
(** tof_instrument.py:213-241: the second column of r is minus the direction of the scattered neutron. *)
Definition r_mat (w : flight) : mat :=
  if w_sph w
  then mx [[cos (w_ti w) * cos (w_fi w); - cos (w_t w) * cos (w_f w)];
           [sin (w_ti w) * cos (w_fi w); - sin (w_t w) * cos (w_f w)];
           [sin (w_fi w); - sin (w_f w)]]
  else mx [[cos (w_ti w) * cos (w_fi w); - cos (w_t w)];
           [sin (w_ti w) * cos (w_fi w); - sin (w_t w)];
           [sin (w_fi w); - tan (w_f w)]].
Definition r_tt (w : flight) : mat :=
  if w_sph w then mx [[0; sin (w_t w) * cos (w_f w)]; [0; - cos (w_t w) * cos (w_f w)]; [0; 0]]
  else mx [[0; sin (w_t w)]; [0; - cos (w_t w)]; [0; 0]].
Definition r_ph (w : flight) : mat :=
  if w_sph w then mx [[0; cos (w_t w) * sin (w_f w)]; [0; sin (w_t w) * sin (w_f w)]; [0; - cos (w_f w)]]
  else mx [[0; 0]; [0; 0]; [0; - (1 + tan (w_f w) ^ 2)]].
(** tof_instrument.py:261-267. *)
Definition r_tt_i (w : flight) : mat := mx [[- sin (w_ti w) * cos (w_fi w); 0]; [cos (w_ti w) * cos (w_fi w); 0]; [0; 0]].
Definition r_ph_i (w : flight) : mat := mx [[- cos (w_ti w) * sin (w_fi w); 0]; [- sin (w_ti w) * sin (w_fi w); 0]; [cos (w_fi w); 0]].
(** A 3x2 matrix times a pair. *)
Definition times (r : mat) (a b : R) : vec := fun i => r i 0%nat * a + r i 1%nat * b.
(** tof_instrument.py:281-289. *)
Definition q_derivs (k : constants) (w : flight) : list vec :=
  let mh := k_m k / k_hbar k in let vi := w_vi w in let vf := w_vf w in
  let ti := w_lpm w / vi in let tf := w_lsd w / vf in let r := r_mat w in
  [times r (- mh * vi / ti) (mh * vf / tf * w_lms w / w_lpm w);
   times r 0 (- mh * vf / tf);
   times r (mh / ti) (- mh * vf / tf * w_lms w / (vi * w_lpm w));
   times r 0 (mh * vf / tf / vi);
   times r 0 (mh / tf);
   times (r_tt_i w) (vi * k_m k / k_hbar k) (vf * k_m k / k_hbar k);
   times (r_ph_i w) (vi * k_m k / k_hbar k) (vf * k_m k / k_hbar k);
   times (r_tt w) (vi * k_m k / k_hbar k) (vf * k_m k / k_hbar k);
   times (r_ph w) (vi * k_m k / k_hbar k) (vf * k_m k / k_hbar k)].
(** tof_instrument.py:292-296. *)
Definition e_derivs (k : constants) (w : flight) : list R :=
  let m := k_m k in let vi := w_vi w in let vf := w_vf w in let ti := w_lpm w / vi in let tf := w_lsd w / vf in
  let lpm := w_lpm w in let lms := w_lms w in let lsd := w_lsd w in
  map (fun x => x / (/ 10 ^ 3 * k_e k))
    [- m * (lpm ^ 2 / ti ^ 3 + lsd ^ 2 / tf ^ 3 * lms / lpm);
     m * (lsd ^ 2 / tf ^ 3);
     m * (lpm / ti ^ 2 + lsd ^ 2 / tf ^ 3 * ti / lpm ^ 2 * lms);
     - m * (lsd ^ 2 / tf ^ 3 * ti / lpm);
     - m * (lsd / tf ^ 2)].
(** tof_instrument.py:299-301: rows Qx, Qy, Qz, E; columns t, t_md, l_pm, l_ms, l_sd, theta_i, phi_i, theta, phi. *)
Definition jacobi (k : constants) (w : flight) : mat := fun i p =>
  if Nat.ltb i 3 then nth p (q_derivs k w) (fun _ => 0) i * / 10 ^ 10 else nth p (e_derivs k w) 0.
(** tof_instrument.py:270-278, 304. *)
Definition covariance (k : constants) (w : flight) : mat :=
  mul 9 (jacobi k w) (mul 9 (diag (map (fun s => s ^ 2) (w_sig w))) (tr (jacobi k w))).

(** ** The calculation at one point: tof_instrument.py:167-329 *)
(** What the call gives: an exception of the modelled kinds, numpy's LinAlgError, arrays of nan, or numbers. *)
Inductive outcome := Raised (e : exn) | Singular | Nans | Numbers (r0 : R) (m : mat).
Fixpoint all_fin (l : list fl) : option (list R) :=
  match l with
  | [] => Some []
  | Fin x :: r => match all_fin r with Some y => Some (x :: y) | None => None end
  | _ :: _ => None
  end.
(** The detector shape: [None] is DetectorError.  ~hasattr(...) is -2 or -1, which Python takes as true. *)
Definition bitnot (b : bool) : Z := if b then (-2)%Z else (-1)%Z.
Definition truthy (z : Z) : bool := negb (Z.eqb z 0).
Definition spherical (d : detector) : res bool :=
  if String.eqb (d_shape d) "spherical" then Ok true
  else if String.eqb (d_shape d) "cylindrical" then
    let has := match d_orientation d with Some _ => true | None => false end in
    if truthy (bitnot has) then Ok false
    else match d_orientation d with
         | Some o => if String.eqb o "vertical" then Ok false else Err DetectorError
         | None => Err AttributeError
         end
  else Err DetectorError.
(** Gstar-norms of the point and of the normal of the scattering plane: numbers exist for positive ones. *)
Definition form2 (l : lattice) (a : v3) : R := dot (mv (Gstar l) a) a.
Definition pos (x : R) : bool := if Rlt_dec 0 x then true else false.
(** tof_instrument.py:189-204: speeds, times and angles; [None]: something is nan or infinite.  theta is the elastic
    scattering angle of the point and phi the angle of the point out of the plane. *)
Definition angles (l : lattice) (u v : v3) (Q : v3) (lambda : fl) : option (R * R) :=
  match lambda with
  | Fin lam => if pos (form2 l Q) then if pos (form2 l (cross u v)) then
                 match get_two_theta l Q lam with
                 | Some t => Some (rad t, PI / 2 - rad (get_phi l u v Q))
                 | None => None
                 end else None else None
  | _ => None
  end.
Definition nonzero (x : R) : bool := if Req_EM_T x 0 then false else true.
(** The flight, when every number in it is finite, no length or speed is zero and the tangent for a cylinder exists. *)
Definition prepare (I : tof) (Q : v3) (ps : list fl) (E Ef : energy) (sph : bool) : option flight :=
  match all_fin ps, vel E, vel Ef, angles (s_cell (f_sample I)) (s_u (f_sample I)) (s_v (f_sample I)) Q (wavelen E) with
  | Some [tau_p; tau_m; tau_d; l_pm; l_ms; l_sd; sl_pm; sl_ms; sl_sd; sti; sfi; st; sf], Fin vi, Fin vf, Some (t, f) =>
      if nonzero l_pm && nonzero l_sd && nonzero vi && nonzero vf && (sph || nonzero (cos f)) then
        Some (mkF vi vf l_pm l_ms l_sd (rad (f_theta_i I)) (rad (f_phi_i I)) t f sph
                [sqrt (tau_p ^ 2 + tau_m ^ 2); sqrt (tau_m ^ 2 + tau_d ^ 2); sl_pm; sl_ms; sl_sd; sti; sfi; st; sf])
      else None
  | _, _, _, _ => None
  end.
(** tof_instrument.py:310-314. *)
Definition rot4 (a : R) : mat := mx [[cos a; - sin a; 0; 0]; [sin a; cos a; 0; 0]; [0; 0; 1; 0]; [0; 0; 0; 1]].
(** tof_instrument.py:321-329. *)
Definition point4 (Q : v3) (W : R) : vec := fun i => nth i [vx Q; vy Q; vz Q; W] 0.
Definition fwhm (m : mat) (X : vec) : R := sum 4 (fun i => sum 4 (fun j => m i j * X i * X j)).
(** A final wavevector of exactly 0, where the code works with infinite times, and an infinite prefactor count as [Nans].
    ki nan: get_kfree and get_angle_ki_Q compare nan with numbers and return nan. *)
Definition calc_in_Q (c : consts) (k : constants) (I : tof) (Q : v3) (W : R) : outcome :=
  match parameters c I with
  | Err e => Raised e
  | Ok ps =>
    let E := values_of c (f_ei I) in
    match wavevec E with
    | Fin ki =>
      match kfree c W ki true with
      | Err e => Raised e
      | Ok okf =>
        match spherical (f_detector I) with
        | Err e => Raised e
        | Ok sph =>
          match okf with
          | Fin kf =>
            let after (f : R -> outcome) :=
              match angle_ki_Q ki kf (get_q (s_cell (f_sample I)) Q) (-1) false with Err e => Raised e | Ok a => f a end in
            if Req_EM_T kf 0 then Nans
            else match build c QWavevector kf with
            | Err e => Raised e
            | Ok Ef =>
              match prepare I Q ps E Ef sph with
              | None => after (fun _ => Nans)
              | Some w =>
                match minv 4 (covariance k w) with
                | None => Singular
                | Some reso => after (fun a =>
                    let R4 := rot4 a in let m := mul 4 (tr R4) (mul 4 reso R4) in
                    let F := fwhm m (point4 Q W) in
                    if Req_EM_T F 0 then Nans else Numbers (2 * ln 2 / F) m)
                end
              end
            end
          | _ => Nans
          end
        end
      end
    | _ => match spherical (f_detector I) with Err e => Raised e | Ok _ => Nans end
    end
  end.

(** ** calc_resolution: tof_instrument.py:353-380 *)
(** np.arctan2 is [MatModel.atan2]; chop (C48) is left out here.  [None]: no orientation matrix (nan). *)
Definition embed (m : m3) : mat := mx [[m11 m; m12 m; m13 m; 0]; [m21 m; m22 m; m23 m; 0]; [m31 m; m32 m; m33 m; 0]; [0; 0; 0; 1]].
Definition rms_of (UB : m3) (Q : v3) (rm : mat) : mat :=
  let q := mv UB Q in
  let T := mul 4 (rot4 (atan2 (vy q) (vx q))) (embed UB) in
  mul 4 T (mul 4 rm (tr T)).
(** One point: prefactor, RM and RMS. *)
Definition calc_point (c : consts) (k : constants) (I : tof) (Q : v3) (W : R) : outcome * option mat :=
  let o := calc_in_Q c k I Q W in
  (o, match o, UBmatrix (s_cell (f_sample I)) (s_u (f_sample I)) (s_v (f_sample I)) with
      | Numbers _ m, Some UB => Some (rms_of UB Q m)
      | _, _ => None
      end).

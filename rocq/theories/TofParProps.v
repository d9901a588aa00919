(** C65: how a time-of-flight instrument turns its parts into the thirteen numbers of the calculation. *)
From Coq Require Import String List ZArith Reals Lra Lia Psatz.
From Verif Require Import Base LinAlg EnergyModel EnergyProps LatticeModel LatticeProps KinModel KinProps MatModel MatInv CompModel TofModel TofProps TofCovProps TofDefProps.
Import ListNotations.
Local Open Scope R_scope.

(** ** Setting an attribute *)
(** The thirteen names in the order of the numbers. *)
Definition set_over (i : nat) (x : R) (o : overrides) : overrides :=
  let '(mkOv a b c d e f g h j k l m n) := o in
  match i with
  | 0%nat => mkOv (Some x) b c d e f g h j k l m n | 1%nat => mkOv a (Some x) c d e f g h j k l m n | 2%nat => mkOv a b (Some x) d e f g h j k l m n
  | 3%nat => mkOv a b c (Some x) e f g h j k l m n | 4%nat => mkOv a b c d (Some x) f g h j k l m n | 5%nat => mkOv a b c d e (Some x) g h j k l m n
  | 6%nat => mkOv a b c d e f (Some x) h j k l m n | 7%nat => mkOv a b c d e f g (Some x) j k l m n | 8%nat => mkOv a b c d e f g h (Some x) k l m n
  | 9%nat => mkOv a b c d e f g h j (Some x) l m n | 10%nat => mkOv a b c d e f g h j k (Some x) m n | 11%nat => mkOv a b c d e f g h j k l (Some x) n
  | 12%nat => mkOv a b c d e f g h j k l m (Some x)
  | _ => o
  end.
Definition with_over (I : tof) (o : overrides) : tof := mkTof (f_ei I) (f_choppers I) (f_sample I) (f_detector I) (f_guides I) (f_theta_i I) (f_phi_i I) o.
(** Microseconds, centimetres, degrees. *)
Definition unit_of (i : nat) : R := if Nat.ltb i 3 then / 10 ^ 6 else if Nat.ltb i 9 then / 10 ^ 2 else PI / 180.
Definition replace_nth {A} (i : nat) (x : A) (l : list A) : list A := firstn i l ++ x :: skipn (S i) l.
(** Setting one of the thirteen attributes (microseconds, centimetres, degrees) replaces exactly one number -- and an instrument whose
    parts do not provide that number fails all the same. *)
Theorem C65_override c I i x : (i < 13)%nat ->
  parameters c (with_over I (set_over i x (f_over I))) = match parameters c I with Ok l => Ok (replace_nth i (Fin (x * unit_of i)) l) | Err e => Err e end.
Proof.
  intros Hi. destruct I as [ei cs s d gs ti fi o]. cbn [with_over f_ei f_choppers f_sample f_detector f_guides f_theta_i f_phi_i f_over]. destruct o as [a0 a1 a2 a3 a4 a5 a6 a7 a8 a9 a10 a11 a12].
  assert (Ci : (i = 0 \/ i = 1 \/ i = 2 \/ i = 3 \/ i = 4 \/ i = 5 \/ i = 6 \/ i = 7 \/ i = 8 \/ i = 9 \/ i = 10 \/ i = 11 \/ i = 12)%nat) by lia. clear Hi.
  unfold parameters, with_over. cbn [f_ei f_choppers f_sample f_detector f_guides f_theta_i f_phi_i f_over].
  set (d0 := bind (item cs 0) tau). set (d1 := bind (item cs 1) tau). set (d2 := Ok (Fin (d_tau d))). set (d3 := bind (item cs 0) (fun c0 => _)). set (d4 := bind (attr (s_distance s)) _).
  set (d5 := Ok (Fin (d_radius d))). set (d6 := bind (item gs 0) (fun g => Ok (Fin (sigma_l g)))). set (d7 := bind (item gs 1) (fun g => Ok (Fin (sigma_l g)))).
  set (d8 := Ok (fmap _ (ndiv (d_radius d) _))). set (d9 := bind (item gs 1) (fun g => Ok (flmul (sigma_theta g) _))). set (d10 := bind (item gs 1) (fun g => Ok (flmul (sigma_phi g) _))).
  set (d11 := Ok (Fin (maxr _ (d_hpixels d)))). set (d12 := bind (maximum (d_height d)) _).
  clearbody d0 d1 d2 d3 d4 d5 d6 d7 d8 d9 d10 d11 d12.
  destruct Ci as [->|[->|[->|[->|[->|[->|[->|[->|[->|[->|[->|[->| ->]]]]]]]]]]]];
    cbn [set_over o_tau_p o_tau_m o_tau_d o_l_pm o_l_ms o_l_sd o_sl_pm o_sl_ms o_sl_sd o_sti o_sfi o_st o_sf];
    (destruct d0; [|reflexivity]); (destruct d1; [|reflexivity]); (destruct d2; [|reflexivity]); (destruct d3; [|reflexivity]); (destruct d4; [|reflexivity]); (destruct d5; [|reflexivity]); (destruct d6; [|reflexivity]);
    (destruct d7; [|reflexivity]); (destruct d8; [|reflexivity]); (destruct d9; [|reflexivity]); (destruct d10; [|reflexivity]); (destruct d11; [|reflexivity]); (destruct d12; reflexivity).
Qed.
Print Assumptions C65_override.
(** Even an instrument told the distance from second chopper to sample needs a sample with a distance. *)
Theorem C65_needs_distance c k I Q W c0 c1 rest t0 t1 : s_distance (f_sample I) = None -> f_choppers I = c0 :: c1 :: rest -> tau c0 = Ok t0 -> tau c1 = Ok t1 ->
  calc_in_Q c k I Q W = Raised AttributeError.
Proof. intros H C T0 T1. unfold calc_in_Q, parameters. rewrite C. cbn [item nth_error bind]. rewrite T0, T1, H. reflexivity. Qed.
Print Assumptions C65_needs_distance.
Example C65_needs_distance_ex : exists I, s_distance (f_sample I) = None /\ o_l_ms (f_over I) = Some 1100 /\
  make 3 NoChoppers (Some (mkSmp (mkL 6 7 8 90 90 90) (V 1 0 0) (V 0 1 0) None None None)) None [mkGuide 1 2500 15 15; mkGuide 1 1100 15 15] 0 0 (set_over 4 1100 no_overrides) = Ok I.
Proof. eexists. repeat split; reflexivity. Qed.

(** ** Guides *)
(** Without guides the instrument gets two, 15 by 15, that fill the distances from chopper to chopper and from chopper to sample. *)
Theorem C65_default_guides ei ch sm de ti fi ov I : make ei ch sm de [] ti fi ov = Ok I ->
  exists c0 c1 rest x g0 g1, f_choppers I = c0 :: c1 :: rest /\ s_distance (f_sample I) = Some x /\ f_guides I = [g0; g1] /\
    ch_distance c0 + gu_length g0 = ch_distance c1 /\ ch_distance c1 + gu_length g1 = x /\
    (forall g, In g (f_guides I) -> gu_m g = 1 /\ gu_width g = 15 /\ gu_height g = 15).
Proof.
  unfold make. destruct (choppers_of ch) as [|c0 [|c1 rest]]; [discriminate|discriminate|]. set (s := match sm with Some s => s | None => default_sample end).
  cbn [item nth_error bind]. destruct (s_distance s) as [x|] eqn:E; [|discriminate]. cbn [attr bind]. intros H. injection H as <-.
  exists c0, c1, rest, x. do 2 eexists. cbn [f_choppers f_sample f_guides]. repeat (split; [first [reflexivity | exact E | cbn; ring]|]).
  intros g [<- | [<- | []]]; auto.
Qed.
Print Assumptions C65_default_guides.
Example C65_default_guides_ex : exists I, make 3 NoChoppers None None [] 0 0 no_overrides = Ok I /\ map gu_length (f_guides I) <> [].
Proof. eexists. split; [reflexivity|discriminate]. Qed.

(** ** The second flight path *)
Definition moved (d : R) (I : tof) : tof :=
  mkTof (f_ei I) (map (fun c => mkChop (ch_distance c + d) (ch_speed c) (ch_width c) (ch_type c) (ch_accept c) (ch_counter c) (ch_radius c) (ch_depth c) (ch_tau c)) (f_choppers I))
    (mkSmp (s_cell (f_sample I)) (s_u (f_sample I)) (s_v (f_sample I)) (s_mosaic (f_sample I)) (s_vmosaic (f_sample I)) (option_map (fun x => x + d) (s_distance (f_sample I))))
    (f_detector I) (f_guides I) (f_theta_i I) (f_phi_i I) (f_over I).
(** Distances are counted from the source.  Moving both choppers and the sample by the same amount changes the length of the path from
    second chopper to sample that the calculation uses by that amount, and nothing else. *)
Theorem C65_moved c I d : o_l_ms (f_over I) = None ->
  parameters c (moved d I) = match parameters c I with Ok l => Ok (replace_nth 4 (fmap (fun x => x + d / 10 ^ 2) (nth 4 l NaN)) l) | Err e => Err e end.
Proof.
  intros H4. destruct I as [ei cs s de gs ti fi o]. unfold moved. cbn [f_ei f_choppers f_sample f_detector f_guides f_theta_i f_phi_i f_over] in *.
  unfold parameters. cbn [f_ei f_choppers f_sample f_detector f_guides f_theta_i f_phi_i f_over s_mosaic s_vmosaic s_distance]. rewrite H4.
  set (cs' := map _ cs). assert (T : forall n, bind (item cs' n) tau = bind (item cs n) tau).
  { intros n. unfold item, cs'. rewrite nth_error_map. destruct (nth_error cs n); reflexivity. }
  rewrite !T.
  assert (D : bind (item cs' 0) (fun c0 => bind (item cs' 1) (fun c1 => Ok (Fin (Rabs (ch_distance c0 - ch_distance c1))))) = bind (item cs 0) (fun c0 => bind (item cs 1) (fun c1 => Ok (Fin (Rabs (ch_distance c0 - ch_distance c1)))))).
  { unfold item, cs'. rewrite !nth_error_map. destruct (nth_error cs 0) as [c0|]; [|reflexivity]. destruct (nth_error cs 1) as [c1|]; [|reflexivity]. cbn [option_map bind ch_distance]. do 3 f_equal. ring. }
  rewrite D. clear T D.
  set (d0 := bind (item cs 0) tau). set (d1 := bind (item cs 1) tau). set (d2 := Ok (Fin (d_tau de))). set (d3 := bind (item cs 0) (fun c0 => _)).
  set (d5 := Ok (Fin (d_radius de))). set (d6 := bind (item gs 0) (fun g => Ok (Fin (sigma_l g)))). set (d7 := bind (item gs 1) (fun g => Ok (Fin (sigma_l g)))).
  set (d8 := Ok (fmap _ (ndiv (d_radius de) _))). set (d9 := bind (item gs 1) (fun g => Ok (flmul (sigma_theta g) _))). set (d10 := bind (item gs 1) (fun g => Ok (flmul (sigma_phi g) _))).
  set (d11 := Ok (Fin (maxr _ (d_hpixels de)))). set (d12 := bind (maximum (d_height de)) _).
  clearbody d0 d1 d2 d3 d5 d6 d7 d8 d9 d10 d11 d12.
  (destruct d0; [|reflexivity]); (destruct d1; [|reflexivity]); (destruct d2; [|reflexivity]); (destruct d3; [|reflexivity]); (destruct (s_distance s) as [x|]; [|reflexivity]); cbn [option_map attr bind over scale fmap];
  (destruct d5; [|reflexivity]); (destruct d6; [|reflexivity]); (destruct d7; [|reflexivity]); (destruct d8; [|reflexivity]); (destruct d9; [|reflexivity]); (destruct d10; [|reflexivity]); (destruct d11; [|reflexivity]); (destruct d12; [|reflexivity]).
  cbn [bind over scale fmap nth replace_nth firstn skipn app]. replace ((x + d) * / 10 ^ 2) with (x * / 10 ^ 2 + d / 10 ^ 2) by (unfold Rdiv; ring). reflexivity.
Qed.
Print Assumptions C65_moved.
(** For the default instrument the path used is 36 m although chopper and sample are 11 m apart. *)
Theorem C65_path_refuted : exists c ei I c0 c1 x l, physical c /\ make ei NoChoppers None None [] 0 0 no_overrides = Ok I /\ f_choppers I = [c0; c1] /\ s_distance (f_sample I) = Some x /\
  parameters c I = Ok (map Fin l) /\ nth 4 l 0 = 36 /\ (x - ch_distance c1) / 10 ^ 2 = 11.
Proof.
  assert (P : physical ex_c) by apply C17_ex. destruct (wave_pos ex_c 1 P ltac:(lra)) as (ki & lam & _ & K2 & _). destruct (default_params ex_c 1 _ lam eq_refl K2) as (s1 & s2 & s3 & E).
  eexists ex_c, 1, _, _, _, _, _. split; [exact P|]. split; [reflexivity|]. split; [reflexivity|]. split; [reflexivity|]. split; [exact E|]. cbn [nth]. split; [reflexivity|]. cbn [ch_distance m_chopper]. lra.
Qed.
Print Assumptions C65_path_refuted.

(** ** Angles *)
Definition with_pixels (d : detector) (h : list R) (hp vp : R) : detector := mkDet (d_shape d) h (d_radius d) hp vp (d_tau d) (d_orientation d).
(** Pixels not larger than the mosaic (in degrees; one degree for a sample without one) have no effect. *)
Theorem C65_pixels c k I Q W h hp vp h' hp' vp' y y' :
  let mo := match s_mosaic (f_sample I) with Some m => m | None => 60 end in
  let vm := match s_vmosaic (f_sample I) with Some m => m | None => 60 end in
  maximum h = Ok y -> maximum h' = Ok y' -> vp <> 0 -> vp' <> 0 -> hp <= mo / 60 -> hp' <= mo / 60 -> y / vp <= vm / 60 -> y' / vp' <= vm / 60 ->
  calc_in_Q c k (with_detector I (with_pixels (f_detector I) h hp vp)) Q W = calc_in_Q c k (with_detector I (with_pixels (f_detector I) h' hp' vp')) Q W.
Proof.
  intros mo vm M M' V V' H H' Y Y'.
  assert (MX : forall a b, b <= a -> maxr a b = a) by (intros a b L; unfold maxr; destruct (Rle_dec a b); lra).
  assert (EP : parameters c (with_detector I (with_pixels (f_detector I) h hp vp)) = parameters c (with_detector I (with_pixels (f_detector I) h' hp' vp'))).
  { unfold parameters, with_detector, with_pixels. cbn [f_ei f_choppers f_sample f_detector f_guides f_theta_i f_phi_i f_over d_tau d_radius d_hpixels d_vpixels d_height]. fold mo vm.
    rewrite M, M'. rewrite (MX _ _ H), (MX _ _ H'). cbn [bind]. unfold ndiv. destruct (Req_EM_T vp 0); [contradiction|]. destruct (Req_EM_T vp' 0); [contradiction|]. cbn [flmax fmap]. rewrite (MX _ _ Y), (MX _ _ Y'). reflexivity. }
  unfold calc_in_Q. rewrite EP. reflexivity.
Qed.
Print Assumptions C65_pixels.
Example C65_pixels_ex : maximum [-15; 15] = Ok 15 /\ 256 <> 0 /\ 1 / 10 <= 60 / 60 /\ 15 / 256 <= 60 / 60.
Proof. unfold maximum. cbn [fold_left]. unfold maxr. destruct (Rle_dec (-15) 15); [|lra]. repeat split; lra. Qed.
Lemma all_fin_none x l : In x l -> (forall z, x <> Fin z) -> all_fin l = None.
Proof. induction l as [|y l IH]; intros H N; [destruct H|]. destruct H as [->|H]; cbn [all_fin]; [destruct x; [exfalso; eapply N; reflexivity|reflexivity|reflexivity]|]. destruct y; try reflexivity. rewrite (IH H N). reflexivity. Qed.
(** A detector without vertical pixels never gives numbers, unless the vertical angle is overridden. *)
Theorem C65_no_pixels c k I Q W : d_vpixels (f_detector I) = 0 -> o_sf (f_over I) = None -> forall r m, calc_in_Q c k I Q W <> Numbers r m.
Proof.
  intros V O r m. unfold calc_in_Q. destruct (parameters c I) as [ps|] eqn:E; [|discriminate].
  assert (A : all_fin ps = None).
  { unfold parameters in E. rewrite V, O in E. set (K := scale (PI / 180) (over None _)) in E. assert (S : forall z, K <> Ok (Fin z)).
    { intros z. unfold K. destruct (maximum (d_height (f_detector I))) as [y|]; [|discriminate]. cbn [bind over scale]. unfold ndiv. destruct (Req_EM_T 0 0); [|lra]. destruct (Req_EM_T y 0); cbn; discriminate. }
    clearbody K. destruct K as [sf|]; repeat match type of E with bind ?x _ = Ok _ => destruct x; cbn [bind] in E; [|discriminate] end; try discriminate. injection E as <-. apply (all_fin_none sf); [cbn; tauto|]. intros z ->. apply (S z). reflexivity. }
  destruct (wavevec (values_of c (f_ei I))) as [ki| |]; [|destruct (spherical _); discriminate|destruct (spherical _); discriminate]. destruct (kfree c W ki true) as [okf|]; [|discriminate]. destruct (spherical _) as [sph|]; [|discriminate]. destruct okf as [kf| |]; try discriminate.
  - destruct (Req_EM_T kf 0); [discriminate|]. destruct (build c QWavevector kf) as [Ef|]; [|discriminate]. unfold prepare. rewrite A. destruct (angle_ki_Q _ _ _ _ _); discriminate.
Qed.
Print Assumptions C65_no_pixels.
Example C65_no_pixels_ex : d_vpixels (with_pixels default_detector [-15; 15] (1 / 10) 0) = 0 /\ o_sf no_overrides = None.
Proof. split; reflexivity. Qed.
(** The divergence of the beam leaving the guide, an angle in radians, is taken for degrees. *)
Theorem C65_divergence c I l g0 g rest lam s : parameters c I = Ok l -> f_guides I = g0 :: g :: rest -> o_sti (f_over I) = None -> o_sfi (f_over I) = None ->
  wavelen (values_of c (f_ei I)) = Fin lam -> sigma_theta g = Fin s -> nth 9 l NaN = Fin (s * lam * (PI / 180)) /\ nth 10 l NaN = Fin (s * lam * (PI / 180)).
Proof.
  intros E G O1 O2 L Sg. unfold parameters in E. rewrite G, O1, O2, L in E. cbn [item nth_error bind] in E. unfold sigma_phi in E. rewrite Sg in E. cbn [flmul over scale bind fmap] in E.
  repeat match type of E with bind ?x _ = Ok _ => destruct x; cbn [bind] in E; [|discriminate] end. injection E as <-. split; reflexivity.
Qed.
Print Assumptions C65_divergence.
Lemma sigma_theta_one a b d : sigma_theta (mkGuide 1 a b d) = Fin (203 / 100000).
Proof.
  unfold sigma_theta. cbn [gu_m]. assert (S0 : 0 <= sin (203 / 100000)) by (apply sin_ge_0; assert (X := PI2_3_2); lra). unfold fsqrt. rewrite Rmult_1_l.
  destruct (Rle_lt_dec 0 (sin (203 / 100000) ^ 2)) as [_|N]; [|assert (X := pow2_ge_0 (sin (203 / 100000))); lra]. rewrite sqrt_pow2 by exact S0.
  destruct (SIN_bound (203 / 100000)) as (_ & S2). destruct (Rle_dec (sin (203 / 100000)) 1) as [_|]; [|lra]. rewrite asin_sin by (assert (X := PI2_3_2); lra). reflexivity.
Qed.
(** With the default guide the divergence used is less than a fiftieth of the angle the guide accepts at that wavelength. *)
Theorem C65_divergence_refuted : exists c ei I l g lam s, physical c /\ make ei NoChoppers None None [] 0 0 no_overrides = Ok I /\ parameters c I = Ok (map Fin l) /\ nth_error (f_guides I) 1 = Some g /\
  wavelen (values_of c ei) = Fin lam /\ sigma_theta g = Fin s /\ 0 < s * lam /\ nth 9 l 0 < s * lam / 50.
Proof.
  assert (P : physical ex_c) by apply C17_ex. destruct (wave_pos ex_c 1 P ltac:(lra)) as (ki & lam & _ & K2 & _ & Pl & _). destruct (default_params ex_c 1 _ lam eq_refl K2) as (s1 & s2 & s3 & E).
  eexists ex_c, 1, _, _, _, lam, (203 / 100000). split; [exact P|]. split; [reflexivity|]. split; [exact E|]. split; [reflexivity|]. split; [exact K2|]. split; [apply sigma_theta_one|].
  assert (P3 : PI < 36 / 10) by (assert (X := PI_4); pose proof (PI_ineq 1) as Y; unfold tg_alt, PI_tg in Y; cbn in Y; lra). assert (X : 0 < 203 / 100000 * lam) by (apply Rmult_lt_0_compat; lra). split; [exact X|]. cbn [nth].
  set (z := 203 / 100000 * lam) in *. unfold Rdiv. assert (z * (PI * / 180) < z * / 50) by (apply Rmult_lt_compat_l; lra). lra.
Qed.
Print Assumptions C65_divergence_refuted.

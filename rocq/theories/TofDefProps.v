(** C44: sufficient conditions for a matrix, the default instrument, and what the calculation ignores. *)
From Coq Require Import String List ZArith Reals Lra Lia Psatz Classical Permutation Sorted.
From Coquelicot Require Import Coquelicot.
From Verif Require Import Base LinAlg EnergyModel EnergyProps LatticeModel LatticeProps KinModel KinProps MatModel MatInv CompModel TofModel TofProps TofCovProps.
Import ListNotations.
Local Open Scope R_scope.
Local Notation sum := MatInv.sum.

Lemma cov_regular k w : 0 < k_m k -> 0 < k_hbar k -> 0 < k_e k -> 0 < w_vi w -> 0 < w_vf w -> 0 < w_lpm w -> 0 <= w_lms w -> 0 < w_lsd w ->
  nth 5 (w_sig w) 0 <> 0 -> nth 7 (w_sig w) 0 <> 0 -> nth 6 (w_sig w) 0 <> 0 \/ nth 8 (w_sig w) 0 <> 0 -> (exists p, (p < 5)%nat /\ nth p (w_sig w) 0 <> 0) ->
  cos (w_fi w) <> 0 -> cos (w_f w) <> 0 -> sin (w_t w - w_ti w) <> 0 -> minv 4 (covariance k w) <> None.
Proof.
  destruct w as [vi vf lpm lms lsd ti fi t f sph sg]. cbn [w_vi w_vf w_lpm w_lms w_lsd w_ti w_fi w_t w_f w_sig].
  intros Km Kh Ke Pvi Pvf L3 L4 L5 N9 N11 Nv (p0 & Hp0 & Np0) Cfi Cf Sn Z. apply cov_singular in Z. destruct Z as (x & Nx & H). cbn [w_sig] in H.
  assert (HZ : forall p, (p < 9)%nat -> nth p sg 0 <> 0 -> mulv 4 (tr (jacobi k (mkF vi vf lpm lms lsd ti fi t f sph sg))) x p = 0).
  { intros p Hp Np. specialize (H p Hp). apply Rmult_integral in H. destruct H as [H|H]; [contradiction|exact H]. }
  clear H. assert (V5 := HZ 5%nat ltac:(lia) N9). assert (V6 := HZ 6%nat ltac:(lia)). assert (V7 := HZ 7%nat ltac:(lia) N11). assert (V8 := HZ 8%nat ltac:(lia)).
  assert (H := HZ p0 ltac:(lia) Np0). clear HZ.
  unfold mulv, tr, jacobi, q_derivs, e_derivs, times, r_mat, r_tt, r_ph, r_tt_i, r_ph_i, mx in V5, V6, V7, V8, H.
  cbn [w_vi w_vf w_lpm w_lms w_lsd w_ti w_fi w_t w_f w_sph MatInv.sum Nat.ltb Nat.leb nth map] in V5, V6, V7, V8.
  cbn [w_vi w_vf w_lpm w_lms w_lsd w_ti w_fi w_t w_f w_sph] in H.
  set (mh := k_m k / k_hbar k). assert (Pmh : 0 < mh) by (apply Rdiv_lt_0_compat; assumption).
  assert (T10 : 0 < / 10 ^ 10) by (apply Rinv_0_lt_compat, pow_lt; lra).
  assert (E5 : - x 0%nat * sin ti + x 1%nat * cos ti = 0).
  { apply (Rmult_eq_reg_r (cos fi * vi * mh * / 10 ^ 10)).
    - rewrite Rmult_0_l, <- V5. unfold mh, Rdiv. ring.
    - repeat apply Rmult_integral_contrapositive_currified; first [assumption|lra|apply Rinv_neq_0_compat; lra]. }
  assert (E7 : x 0%nat * sin t - x 1%nat * cos t = 0).
  { destruct sph; cbn [nth] in V7.
    - apply (Rmult_eq_reg_r (cos f * vf * mh * / 10 ^ 10)).
      + rewrite Rmult_0_l, <- V7. unfold mh, Rdiv. ring.
      + repeat apply Rmult_integral_contrapositive_currified; first [assumption|lra|apply Rinv_neq_0_compat; lra].
    - apply (Rmult_eq_reg_r (vf * mh * / 10 ^ 10)).
      + rewrite Rmult_0_l, <- V7. unfold mh, Rdiv. ring.
      + repeat apply Rmult_integral_contrapositive_currified; first [assumption|lra|apply Rinv_neq_0_compat; lra]. }
  rewrite sin_minus in Sn.
  assert (X0 : x 0%nat = 0). { apply (Rmult_eq_reg_r (sin t * cos ti - cos t * sin ti)); [|exact Sn]. replace (x 0%nat * (sin t * cos ti - cos t * sin ti)) with (cos ti * (x 0%nat * sin t - x 1%nat * cos t) + cos t * (- x 0%nat * sin ti + x 1%nat * cos ti)) by ring. rewrite E5, E7. ring. }
  assert (X1 : x 1%nat = 0). { apply (Rmult_eq_reg_r (sin t * cos ti - cos t * sin ti)); [|exact Sn]. replace (x 1%nat * (sin t * cos ti - cos t * sin ti)) with (sin ti * (x 0%nat * sin t - x 1%nat * cos t) + sin t * (- x 0%nat * sin ti + x 1%nat * cos ti)) by ring. rewrite E5, E7. ring. }
  rewrite X0, X1 in V6, V8.
  assert (X2 : x 2%nat = 0).
  { destruct Nv as [N|N].
    - specialize (V6 N). apply (Rmult_eq_reg_r (cos fi * vi * mh * / 10 ^ 10)).
      + rewrite Rmult_0_l, <- V6. unfold mh, Rdiv. ring.
      + repeat apply Rmult_integral_contrapositive_currified; first [assumption|lra|apply Rinv_neq_0_compat; lra].
    - specialize (V8 N). destruct sph; cbn [nth] in V8.
      + apply (Rmult_eq_reg_r (- cos f * vf * mh * / 10 ^ 10)).
        * rewrite Rmult_0_l, <- V8. unfold mh, Rdiv. ring.
        * repeat apply Rmult_integral_contrapositive_currified; first [assumption|lra|apply Rinv_neq_0_compat; lra].
      + assert (1 + tan f ^ 2 <> 0) by (assert (Y := pow2_ge_0 (tan f)); lra). apply (Rmult_eq_reg_r (- (1 + tan f ^ 2) * vf * mh * / 10 ^ 10)).
        * rewrite Rmult_0_l, <- V8. unfold mh, Rdiv. ring.
        * repeat apply Rmult_integral_contrapositive_currified; first [assumption|lra|apply Rinv_neq_0_compat; lra]. }
  assert (X3 : x 3%nat = 0).
  { assert (Pti : 0 < lpm / vi) by (apply Rdiv_lt_0_compat; assumption). assert (Ptf : 0 < lsd / vf) by (apply Rdiv_lt_0_compat; assumption). set (tti := lpm / vi) in *. set (tf := lsd / vf) in *.
    assert (I3 : forall n, 0 < / tti ^ n) by (intros; apply Rinv_0_lt_compat, pow_lt; assumption). assert (F3 : forall n, 0 < / tf ^ n) by (intros; apply Rinv_0_lt_compat, pow_lt; assumption).
    assert (Plpm : 0 < / lpm) by (apply Rinv_0_lt_compat; assumption). assert (Pe : 0 < / (/ 10 ^ 3 * k_e k)) by (apply Rinv_0_lt_compat, Rmult_lt_0_compat; [apply Rinv_0_lt_compat, pow_lt; lra|assumption]).
    assert (A1 : 0 < lpm ^ 2) by (apply pow_lt; assumption). assert (A2 : 0 < lsd ^ 2) by (apply pow_lt; assumption). assert (A3 : 0 < / lpm ^ 2) by (apply Rinv_0_lt_compat; assumption).
    assert (PP : forall a b, 0 < a -> 0 < b -> 0 < a * b) by (intros; apply Rmult_lt_0_compat; assumption).
    assert (PZ : forall a b, 0 < a -> 0 <= b -> 0 <= a * b) by (intros; apply Rmult_le_pos; lra).
    cbn [MatInv.sum Nat.ltb Nat.leb map] in H. rewrite X0, X1, X2 in H. set (ee := / (/ 10 ^ 3 * k_e k)) in *.
    assert (Cp : (p0 = 0 \/ p0 = 1 \/ p0 = 2 \/ p0 = 3 \/ p0 = 4)%nat) by lia.
    assert (G : forall y, y <> 0 -> x 3%nat * y = 0 -> x 3%nat = 0) by (intros y Hy Z; apply Rmult_integral in Z; destruct Z; [assumption|contradiction]).
    destruct Cp as [->|[->|[->|[->| ->]]]]; cbn [nth] in H.
    - apply (G (- (k_m k * (lpm ^ 2 / tti ^ 3 + lsd ^ 2 / tf ^ 3 * lms / lpm) * ee))).
      + unfold Rdiv. assert (0 < lpm ^ 2 * / tti ^ 3) by auto 12. assert (0 <= lsd ^ 2 * / tf ^ 3 * lms * / lpm) by (rewrite Rmult_assoc; apply PZ; [auto 12|]; rewrite Rmult_comm; apply PZ; assumption).
        assert (0 < k_m k * (lpm ^ 2 * / tti ^ 3 + lsd ^ 2 * / tf ^ 3 * lms * / lpm) * ee) by (apply PP; [apply PP; lra|exact Pe]). lra.
      + rewrite <- H. unfold Rdiv. fold ee. ring.
    - apply (G (k_m k * (lsd ^ 2 / tf ^ 3) * ee)).
      + assert (0 < k_m k * (lsd ^ 2 * / tf ^ 3) * ee) by auto 12. unfold Rdiv. lra.
      + rewrite <- H. unfold Rdiv. fold ee. ring.
    - apply (G (k_m k * (lpm / tti ^ 2 + lsd ^ 2 / tf ^ 3 * tti / lpm ^ 2 * lms) * ee)).
      + unfold Rdiv. assert (0 < lpm * / tti ^ 2) by auto 12. assert (0 <= lsd ^ 2 * / tf ^ 3 * tti * / lpm ^ 2 * lms) by (apply PZ; [auto 12|assumption]).
        assert (0 < k_m k * (lpm * / tti ^ 2 + lsd ^ 2 * / tf ^ 3 * tti * / lpm ^ 2 * lms) * ee) by (apply PP; [apply PP; lra|exact Pe]). lra.
      + rewrite <- H. unfold Rdiv. fold ee. ring.
    - apply (G (- (k_m k * (lsd ^ 2 / tf ^ 3 * tti / lpm) * ee))).
      + assert (0 < k_m k * (lsd ^ 2 * / tf ^ 3 * tti * / lpm) * ee) by auto 12. unfold Rdiv. lra.
      + rewrite <- H. unfold Rdiv. fold ee. ring.
    - apply (G (- (k_m k * (lsd / tf ^ 2) * ee))).
      + assert (0 < k_m k * (lsd * / tf ^ 2) * ee) by auto 12. unfold Rdiv. lra.
      + rewrite <- H. unfold Rdiv. fold ee. ring. }
  destruct Nx as (i & Hi & Ni). assert (Ci : (i = 0 \/ i = 1 \/ i = 2 \/ i = 3)%nat) by lia. destruct Ci as [->|[->|[->| ->]]]; contradiction.
Qed.
(** A matrix exists for every reached point when both horizontal angles, one vertical angle and one time or distance are uncertain, and
    the two paths are not parallel in the horizontal plane.  Where the triangle does not close the error says so. *)
Theorem C44_exists c k I Q W l sph vi vf ki kf t f : physical c -> 0 < k_m k -> 0 < k_hbar k -> 0 < k_e k -> flown c I Q W l sph vi vf ki kf t f ->
  0 < nth 3 l 0 -> 0 <= nth 4 l 0 -> 0 < nth 5 l 0 ->
  nth 9 l 0 <> 0 -> nth 11 l 0 <> 0 -> nth 10 l 0 <> 0 \/ nth 12 l 0 <> 0 -> (exists p, (p < 5)%nat /\ nth p (variances l) 0 <> 0) ->
  cos (rad (f_phi_i I)) <> 0 -> cos f <> 0 -> sin (t - rad (f_theta_i I)) <> 0 ->
  (Rabs (ki - kf) <= get_q (s_cell (f_sample I)) Q <= ki + kf -> exists r0 m, calc_in_Q c k I Q W = Numbers r0 m /\ posdef 4 m /\ 0 < r0) /\
  (~ Rabs (ki - kf) <= get_q (s_cell (f_sample I)) Q <= ki + kf -> calc_in_Q c k I Q W = Raised ScatteringTriangleError).
Proof.
  intros P Km Kh Ke Fl L3 L4 L5 N9 N11 Nv (p0 & Hp0 & Np0) Cfi Cf Sn.
  assert (Pvf : 0 < vf) by apply Fl. assert (Pvi : 0 < vi) by apply Fl. assert (Pki : 0 < ki) by apply Fl. assert (Pkf : 0 < kf) by apply Fl. assert (Pq : 0 < get_q (s_cell (f_sample I)) Q) by apply Fl.
  destruct (flown_flight _ _ _ _ _ _ _ _ _ _ _ _ P Fl) as (w & Rg & Nw & Sw & Vw & (W1 & W2 & W3 & W4 & W5 & W6 & W7 & W8 & W9) & EC).
  assert (VS : forall p, nth p (variances l) 0 <> 0 -> nth p (w_sig w) 0 <> 0). { intros p H Z. apply H. rewrite <- Vw, nth_sq, Z. ring. }
  assert (PN : forall z, z <> 0 -> z ^ 2 <> 0) by (intros; apply pow_nonzero; assumption).
  assert (CR : minv 4 (covariance k w) <> None).
  { apply cov_regular; rewrite ?W1, ?W2, ?W3, ?W4, ?W5, ?W6, ?W7, ?W8, ?W9; auto.
    - apply VS. exact (PN _ N9).
    - apply VS. exact (PN _ N11).
    - destruct Nv as [N|N]; [left|right]; apply VS; exact (PN _ N).
    - exists p0. split; [exact Hp0|apply VS; exact Np0]. }
  split.
  - intros Tri. assert (HD : forall i p, (i < 4)%nat -> (p < 9)%nat -> is_derive (fun s => observed k sph (upd (nine I l vi vf t f) p s) i) (nine I l vi vf t f p) (jacobi k w i p)).
    { intros i p Hi Hp. rewrite <- Nw, <- Sw. apply C44_jacobian; auto; lra. }
    destruct (C44_outcome c k I Q W l sph vi vf ki kf t f (jacobi k w) P ltac:(lra) ltac:(lra) (conj Fl Tri) HD) as (S1 & S2).
    assert (B : ~ calc_in_Q c k I Q W = Singular). { rewrite (EC k). destruct (minv 4 (covariance k w)); [|congruence]. destruct (angle_ki_Q _ _ _ _ _); [|discriminate]. cbv zeta. destruct (Req_EM_T _ 0); discriminate. }
    destruct S2 as (r0 & m & E); [intros X; exact (B (S1 X))|]. exists r0, m. split; [exact E|].
    destruct (C44_covariance c k I Q W r0 m P ltac:(lra) ltac:(lra) E) as (? & ? & ? & ? & ? & ? & ? & ? & ? & ? & ? & ? & ? & ? & ? & ? & ? & ? & ? & ? & ? & H). split; apply H.
  - intros N. assert (N' : ~ (Rabs (ki - get_q (s_cell (f_sample I)) Q) <= kf <= ki + get_q (s_cell (f_sample I)) Q)).
    { set (q := get_q (s_cell (f_sample I)) Q) in *. intros (T1 & T2). apply N. assert (X := Rle_abs (ki - q)). assert (Y := Rle_abs (- (ki - q))). rewrite Rabs_Ropp in Y. split; [apply Rabs_le; lra|lra]. }
    destruct (C36_angle ki kf _ (-1) Pki (Rlt_le _ _ Pkf) Pq ltac:(lra)) as (_ & A2). rewrite (EC k), (A2 N' false). destruct (minv 4 (covariance k w)); [reflexivity|congruence].
Qed.
Print Assumptions C44_exists.

(** ** The default instrument *)
Lemma ortho_gstar a b c : 0 < a -> 0 < b -> 0 < c ->
  Gstar (mkL a b c 90 90 90) = M (4 * PI ^ 2 / a ^ 2) 0 0 0 (4 * PI ^ 2 / b ^ 2) 0 0 0 (4 * PI ^ 2 / c ^ 2).
Proof.
  intros A B C. unfold Gstar, G. cbn [la lb lc alpha beta gamma]. rewrite rad90, cos_PI2. unfold inv, det, mscal. cbn [m11 m12 m13 m21 m22 m23 m31 m32 m33].
  f_equal; field; repeat split; lra.
Qed.
Lemma ortho_q a b c x y z : 0 < a -> 0 < b -> 0 < c -> get_q (mkL a b c 90 90 90) (V x y z) = 2 * PI * sqrt (x ^ 2 / a ^ 2 + y ^ 2 / b ^ 2 + z ^ 2 / c ^ 2).
Proof.
  intros A B C. assert (Pi := PI_RGT_0). unfold get_q, get_d_spacing. rewrite ortho_gstar by assumption. unfold Rdiv at 1 2. rewrite Rmult_1_l, Rinv_inv. f_equal. f_equal.
  unfold dot, mv, mscal. cbn [vx vy vz m11 m12 m13 m21 m22 m23 m31 m32 m33]. field. repeat split; lra.
Qed.
Lemma default_params c ei I lam : make ei NoChoppers None None [] 0 0 no_overrides = Ok I -> wavelen (values_of c ei) = Fin lam ->
  exists sl1 sl2 sl3, parameters c I = Ok (map Fin [38 * / 10 ^ 6; 6 * / 10 ^ 6; 1 / 10 * / 10 ^ 6; 25; 36; 3; sl1; sl2; sl3; 203 / 100000 * lam * (PI / 180); 203 / 100000 * lam * (PI / 180); PI / 180; PI / 180]).
Proof.
  intros H El. cbn in H. injection H as <-. unfold parameters. cbn [f_over f_sample f_detector f_choppers f_guides f_ei no_overrides o_tau_p o_tau_m o_tau_d o_l_pm o_l_ms o_l_sd o_sl_pm o_sl_ms o_sl_sd o_sti o_sfi o_st o_sf
    default_sample s_mosaic s_vmosaic s_distance default_detector d_tau d_radius d_hpixels d_vpixels d_height item nth_error tau p_chopper m_chopper ch_tau ch_distance bind over scale attr fmap].
  unfold sigma_phi, sigma_theta. cbn [gu_m]. assert (S0 : 0 <= sin (203 / 100000)) by (apply sin_ge_0; assert (X := PI2_3_2); lra).
  assert (FS : fsqrt (1 * sin (203 / 100000) ^ 2) = Fin (sin (203 / 100000))).
  { unfold fsqrt. rewrite Rmult_1_l. destruct (Rle_lt_dec 0 (sin (203 / 100000) ^ 2)) as [_|N]; [|assert (X := pow2_ge_0 (sin (203 / 100000))); lra]. f_equal. apply sqrt_pow2. exact S0. }
  rewrite FS. destruct (SIN_bound (203 / 100000)) as (_ & S2). destruct (Rle_dec (sin (203 / 100000)) 1) as [_|]; [|lra].
  rewrite asin_sin by (assert (X := PI2_3_2); lra). rewrite El. cbn [flmul fmap maximum fold_left bind].
  assert (Cn : cos (rad (60 / 60)) <> 0). { assert (Pi := PI_RGT_0). assert (0 < cos (rad (60 / 60))) by (apply cos_gt_0; unfold rad; lra). lra. }
  unfold ndiv. destruct (Req_EM_T (cos (rad (60 / 60))) 0) as [|_]; [contradiction|]. destruct (Req_EM_T 256 0) as [|_]; [lra|].
  cbn [fmap flmax]. unfold maxr. destruct (Rle_dec (60 / 60) (1 / 10)); [lra|]. destruct (Rle_dec (-15) 15); [|lra]. destruct (Rle_dec (60 / 60) (15 / 256)); [lra|].
  cbn [bind fmap scale over]. rewrite Rabs_left by lra.
  replace (- (0 - 2500) * / 10 ^ 2) with 25 by lra. replace (3600 * / 10 ^ 2) with 36 by lra. replace (300 * / 10 ^ 2) with 3 by lra. replace (60 / 60 * (PI / 180)) with (PI / 180) by lra.
  do 3 eexists. reflexivity.
Qed.
Lemma default_flown c ei I h l W ki kf : physical c -> make ei NoChoppers None None [] 0 0 no_overrides = Ok I ->
  0 <= W -> 0 < ki -> kinetic c ki = ei -> 0 < kf -> kinetic c kf = ei - W ->
  let q := 2 * PI * sqrt (h ^ 2 / 36 + l ^ 2 / 49) in
  0 < q -> q < 2 * ki ->
  get_q (s_cell (f_sample I)) (V h l 0) = q /\ f_theta_i I = 0 /\ f_phi_i I = 0 /\
  exists lam s1 s2 s3 vi vf t, 0 < lam /\ 0 < t < PI /\
    flown c I (V h l 0) W [38 * / 10 ^ 6; 6 * / 10 ^ 6; 1 / 10 * / 10 ^ 6; 25; 36; 3; s1; s2; s3; 203 / 100000 * lam * (PI / 180); 203 / 100000 * lam * (PI / 180); PI / 180; PI / 180] false vi vf ki kf t 0.
Proof.
  intros P HM HW Pki Eki Pkf Ekf q Pq Lq. assert (U := unit_pos c P). assert (Pi := PI_RGT_0).
  assert (He : 0 < ei) by (rewrite <- Eki, kinetic_sq; apply Rmult_lt_0_compat; [exact U|apply pow_lt; exact Pki]).
  destruct (wave_pos c ei P He) as (ki' & lam & K1 & K2 & Pki' & Plam & LK & KE). assert (ki' = ki) by (apply (kinetic_inj c); auto; lra). subst ki'.
  destruct (default_params c ei I lam HM K2) as (s1 & s2 & s3 & EP).
  assert (HI : I = mkTof ei [p_chopper; m_chopper] default_sample default_detector (f_guides I) 0 0 no_overrides) by (cbn in HM; injection HM as <-; reflexivity).
  assert (Fs : f_sample I = default_sample) by (rewrite HI; reflexivity). assert (Fd : f_detector I = default_detector) by (rewrite HI; reflexivity).
  assert (Fe : f_ei I = ei) by (rewrite HI; reflexivity). assert (Fti : f_theta_i I = 0) by (rewrite HI; reflexivity). assert (Ffi : f_phi_i I = 0) by (rewrite HI; reflexivity).
  assert (Gq : get_q (s_cell (f_sample I)) (V h l 0) = q).
  { rewrite Fs. unfold default_sample. cbn [s_cell]. rewrite ortho_q by lra. unfold q. f_equal. f_equal. field. }
  assert (Gc : get_q (s_cell (f_sample I)) (cross (s_u (f_sample I)) (s_v (f_sample I))) = 2 * PI / 8).
  { rewrite Fs. unfold default_sample, cross. cbn [s_cell s_u s_v vx vy vz]. rewrite ortho_q by lra. replace ((0 * 0 - 0 * 1) ^ 2 / 6 ^ 2 + (0 * 0 - 1 * 0) ^ 2 / 7 ^ 2 + (1 * 1 - 0 * 0) ^ 2 / 8 ^ 2) with ((1 / 8) ^ 2) by field. rewrite sqrt_pow2 by lra. field. }
  assert (Gf : get_phi (s_cell (f_sample I)) (s_u (f_sample I)) (s_v (f_sample I)) (V h l 0) = 90).
  { rewrite Fs. unfold default_sample, get_phi, get_angle_between_planes. cbn [s_cell s_u s_v]. rewrite ortho_gstar by lra. cbv zeta.
    match goal with |- deg (acos (?a / _ / _)) = _ => replace a with 0 by (unfold dot, mv, cross; cbn [vx vy vz m11 m12 m13 m21 m22 m23 m31 m32 m33]; ring) end. unfold Rdiv. rewrite !Rmult_0_l, acos_0. unfold deg. field. lra. }
  set (t := 2 * asin (q / (2 * ki))). assert (B1 : 0 < q / (2 * ki)) by (apply Rdiv_lt_0_compat; lra). assert (B2 : q / (2 * ki) < 1) by (apply (Rmult_lt_reg_r (2 * ki)); [lra|]; unfold Rdiv; rewrite Rmult_assoc, Rinv_l by lra; lra).
  assert (St : sin (t / 2) = q / (2 * ki)) by (replace (t / 2) with (asin (q / (2 * ki))) by (unfold t; field); apply sin_asin; lra).
  assert (Tr : 0 < t < PI).
  { unfold t. destruct (asin_bound_lt (q / (2 * ki)) ltac:(lra)) as (X1 & X2). split; [|lra]. destruct (Rle_lt_dec (asin (q / (2 * ki))) 0) as [L|L]; [|lra]. exfalso.
    replace (t / 2) with (asin (q / (2 * ki))) in St by (unfold t; field). assert (sin (asin (q / (2 * ki))) <= 0). { destruct (Rle_lt_or_eq_dec _ _ L) as [L'|L']; [left; apply sin_lt_0_var; lra|right; rewrite L'; apply sin_0]. } lra. }
  destruct (C17_relations c QEnergy ei (values_of c ei) P He eq_refl) as (_ & _ & vi & _ & _ & Hvi & _). destruct (speed_fin c ei vi P He Hvi) as (Pvi & Ivi).
  assert (He' : 0 < ei - W) by (rewrite <- Ekf, kinetic_sq; apply Rmult_lt_0_compat; [exact U|apply pow_lt; exact Pkf]).
  destruct (C17_relations c QEnergy (ei - W) (values_of c (ei - W)) P He' eq_refl) as (_ & _ & vf & _ & _ & Hvf & _). destruct (speed_fin c _ vf P He' Hvf) as (Pvf & Ivf).
  assert (Re : flown c I (V h l 0) W [38 * / 10 ^ 6; 6 * / 10 ^ 6; 1 / 10 * / 10 ^ 6; 25; 36; 3; s1; s2; s3; 203 / 100000 * lam * (PI / 180); 203 / 100000 * lam * (PI / 180); PI / 180; PI / 180] false vi vf ki kf t 0).
  { unfold flown. rewrite Gq, Gc, Gf, Fe, Fd, rad90, cos_0. cbn [nth]. split; [exact EP|]. split; [reflexivity|]. split; [lra|]. split; [lra|]. split; [reflexivity|].
    split; [auto|]. split; [auto|]. split; [auto|]. split; [auto|]. split; [exact HW|]. split; [exact Pq|]. split; [lra|]. split; [split; [lra|rewrite St; field; lra]|]. split; [ring|intros _; lra]. }
  split; [exact Gq|]. split; [exact Fti|]. split; [exact Ffi|]. exists lam, s1, s2, s3, vi, vf, t. split; [exact Plam|]. split; [exact Tr|]. exact Re.
Qed.
(** The default instrument (incident energy [ei]) gives a positive definite matrix and a positive prefactor at every point of its
    horizontal plane whose momentum transfer closes the triangle, except straight backwards. *)
Theorem C44_default c k ei I h l W ki kf : physical c -> 0 < k_m k -> 0 < k_hbar k -> 0 < k_e k ->
  make ei NoChoppers None None [] 0 0 no_overrides = Ok I ->
  0 <= W -> 0 < ki -> kinetic c ki = ei -> 0 < kf -> kinetic c kf = ei - W ->
  let q := 2 * PI * sqrt (h ^ 2 / 36 + l ^ 2 / 49) in
  0 < q -> q < 2 * ki ->
  (Rabs (ki - kf) <= q <= ki + kf -> exists r0 m, calc_in_Q c k I (V h l 0) W = Numbers r0 m /\ posdef 4 m /\ 0 < r0) /\
  (~ Rabs (ki - kf) <= q <= ki + kf -> calc_in_Q c k I (V h l 0) W = Raised ScatteringTriangleError).
Proof.
  intros P Km Kh Ke HM HW Pki Eki Pkf Ekf q Pq Lq. assert (Pi := PI_RGT_0).
  destruct (default_flown c ei I h l W ki kf P HM HW Pki Eki Pkf Ekf Pq Lq) as (Gq & Fti & Ffi & lam & s1 & s2 & s3 & vi & vf & t & Plam & Tr & Re). fold q in Gq.
  assert (Pl : 203 / 100000 * lam * (PI / 180) <> 0) by (assert (0 < 203 / 100000 * lam * (PI / 180)) by (apply Rmult_lt_0_compat; [apply Rmult_lt_0_compat|]; lra); lra).
  rewrite <- Gq. apply (C44_exists c k I (V h l 0) W _ _ _ _ _ _ _ _ P Km Kh Ke Re); cbn [nth]; try lra; try exact Pl.
  - exists 0%nat. split; [lia|]. unfold variances. cbn [nth]. assert (0 < (38 * / 10 ^ 6) ^ 2 + (6 * / 10 ^ 6) ^ 2) by (apply Rplus_lt_0_compat; apply pow_lt; lra). lra.
  - rewrite Ffi. unfold rad. replace (0 * PI / 180) with 0 by field. rewrite cos_0. lra.
  - rewrite cos_0. lra.
  - rewrite Fti. unfold rad. replace (t - 0 * PI / 180) with t by field. assert (X := sin_gt_0 t ltac:(lra) ltac:(lra)). lra.
Qed.
Print Assumptions C44_default.
Definition ex_k : constants := mkK 1 1 1.
Example C44_default_ex : exists I r0 m, make (kinetic ex_c 1) NoChoppers None None [] 0 0 no_overrides = Ok I /\ calc_in_Q ex_c ex_k I (V 1 0 0) 0 = Numbers r0 m /\ posdef 4 m /\ 0 < r0.
Proof.
  eexists. assert (Pi := PI_RGT_0). assert (P4 := PI_4). assert (P3 := PI2_3_2).
  assert (Sq : 2 * PI * sqrt (1 ^ 2 / 36 + 0 ^ 2 / 49) = PI / 3). { replace (1 ^ 2 / 36 + 0 ^ 2 / 49) with ((1 / 6) ^ 2) by field. rewrite sqrt_pow2 by lra. field. }
  destruct (C44_default ex_c ex_k (kinetic ex_c 1) _ 1 0 0 1 1 (proj1 C17_ex) ltac:(cbn; lra) ltac:(cbn; lra) ltac:(cbn; lra) eq_refl ltac:(lra) ltac:(lra) eq_refl ltac:(lra) ltac:(ring)) as (A & _).
  - rewrite Sq. lra.
  - rewrite Sq. lra.
  - destruct A as (r0 & m & H). { rewrite Sq. replace (1 - 1) with 0 by ring. rewrite Rabs_R0. lra. } exists r0, m. split; [reflexivity|exact H].
Qed.

(** ** Energy transfers *)
(** Above the incident energy: the triangle error (the parameters being computable).  Below zero: never a matrix. *)
Theorem C44_range c k I Q W ps : physical c -> parameters c I = Ok ps -> 0 < f_ei I -> spherical (f_detector I) <> Err DetectorError ->
  (f_ei I < W -> calc_in_Q c k I Q W = Raised ScatteringTriangleError) /\
  (W < 0 -> calc_in_Q c k I Q W = Nans).
Proof.
  intros P EP He ES. destruct (wave_pos c _ P He) as (ki & lam & K1 & K2 & Pki & Plam & LK & KE).
  assert (HS : exists b, spherical (f_detector I) = Ok b).
  { unfold spherical in *. destruct (String.eqb _ "spherical"); [eexists; reflexivity|]. destruct (String.eqb _ "cylindrical"); [|congruence]. destruct (d_orientation (f_detector I)); eexists; reflexivity. }
  destruct HS as (b & HS). unfold calc_in_Q. rewrite EP. cbv zeta. rewrite K1, HS. split; intros H.
  - destruct (C36_kfree c W ki P ltac:(lra)) as (_ & K & _). rewrite K by lra. reflexivity.
  - rewrite (C36_gain c W ki true P H). reflexivity.
Qed.
Print Assumptions C44_range.
(** ** The shape of the detector *)
Definition with_detector (I : tof) (d : detector) : tof := mkTof (f_ei I) (f_choppers I) (f_sample I) d (f_guides I) (f_theta_i I) (f_phi_i I) (f_over I).
Definition oriented (d : detector) (o : option string) : detector := mkDet (d_shape d) (d_height d) (d_radius d) (d_hpixels d) (d_vpixels d) (d_tau d) o.
(** The orientation of the detector never matters, not even 'horizontal', which the code means to refuse. *)
Theorem C44_orientation c k I Q W o : calc_in_Q c k (with_detector I (oriented (f_detector I) o)) Q W = calc_in_Q c k I Q W.
Proof.
  assert (E : spherical (oriented (f_detector I) o) = spherical (f_detector I)).
  { unfold spherical, oriented. cbn [d_shape d_orientation]. destruct (String.eqb _ "spherical"); [reflexivity|]. destruct (String.eqb _ "cylindrical"); [|reflexivity].
    destruct (d_orientation (f_detector I)); destruct o; reflexivity. }
  unfold calc_in_Q. cbn [with_detector f_ei f_detector f_sample]. rewrite E. reflexivity.
Qed.
Print Assumptions C44_orientation.
Theorem C44_horizontal_refuted : exists c k I Q W r0 m, d_shape (f_detector I) = "cylindrical"%string /\ d_orientation (f_detector I) = Some "horizontal"%string /\
  calc_in_Q c k I Q W = Numbers r0 m.
Proof.
  destruct C44_default_ex as (I & r0 & m & HM & H & _). exists ex_c, ex_k, (with_detector I (oriented (f_detector I) (Some "horizontal"%string))), (V 1 0 0), 0, r0, m.
  split; [cbn in HM; injection HM as <-; reflexivity|]. split; [reflexivity|]. rewrite C44_orientation. exact H.
Qed.
Print Assumptions C44_horizontal_refuted.
(** Any shape other than the two names is refused once the parameters have been computed and the energy transfer is possible. *)
Theorem C44_shape c k I Q W ps : physical c -> parameters c I = Ok ps -> 0 < f_ei I -> W <= f_ei I ->
  d_shape (f_detector I) <> "spherical"%string -> d_shape (f_detector I) <> "cylindrical"%string -> calc_in_Q c k I Q W = Raised DetectorError.
Proof.
  intros P EP He HW N1 N2. destruct (wave_pos c _ P He) as (ki & lam & K1 & K2 & Pki & Plam & LK & KE). unfold calc_in_Q. rewrite EP. cbv zeta. rewrite K1.
  assert (ES : spherical (f_detector I) = Err DetectorError).
  { unfold spherical. destruct (String.eqb_spec (d_shape (f_detector I)) "spherical"); [contradiction|]. destruct (String.eqb_spec (d_shape (f_detector I)) "cylindrical"); [contradiction|reflexivity]. }
  assert (EK : exists x, kfree c W ki true = Ok x).
  { destruct (Rlt_le_dec W 0) as [L|L]; [exists NaN; apply C36_gain; assumption|]. destruct (C36_kfree c W ki P L) as (K & _). destruct (K ltac:(lra)) as (kf & E & _). eexists. exact E. }
  destruct EK as (x & ->). rewrite ES. reflexivity.
Qed.
Print Assumptions C44_shape.

(** ** Choppers *)
Lemma insert_perm x l : Permutation (insert x l) (x :: l).
Proof. induction l as [|y r IH]; cbn [insert]; [reflexivity|]. destruct (Rlt_dec (ch_distance y) (ch_distance x)); [|reflexivity]. rewrite IH. apply perm_swap. Qed.
Lemma sorted_perm l : Permutation (sorted l) l.
Proof. induction l as [|x r IH]; cbn [sorted]; [reflexivity|]. rewrite insert_perm, IH. reflexivity. Qed.
Definition before (a b : chopper) : Prop := ch_distance a <= ch_distance b.
Lemma insert_sorted x l : StronglySorted before l -> StronglySorted before (insert x l).
Proof.
  induction 1 as [|y r Sr IH Hy]; cbn [insert]; [repeat constructor|]. destruct (Rlt_dec (ch_distance y) (ch_distance x)) as [L|L].
  - constructor; [exact IH|]. apply (Permutation_Forall (Permutation_sym (insert_perm x r))). constructor; [unfold before; lra|exact Hy].
  - constructor; [constructor; assumption|]. constructor; [unfold before; lra|]. eapply List.Forall_impl; [|exact Hy]. unfold before. intros a Ha. lra.
Qed.
Lemma sorted_sorted l : StronglySorted before (sorted l).
Proof. induction l as [|x r IH]; cbn [sorted]; [constructor|apply insert_sorted; exact IH]. Qed.
Lemma sorted_unique l : forall l', StronglySorted before l -> StronglySorted before l' -> Permutation l l' -> NoDup (map ch_distance l) -> l = l'.
Proof.
  induction l as [|x r IH]; intros l' S1 S2 Pm Nd; [symmetry; apply Permutation_nil; exact Pm|].
  destruct l' as [|y r']; [apply Permutation_sym, Permutation_nil in Pm; discriminate|].
  apply StronglySorted_inv in S1. apply StronglySorted_inv in S2. destruct S1 as (S1 & F1). destruct S2 as (S2 & F2).
  assert (E : x = y).
  { assert (Ix : In x (y :: r')) by (apply (Permutation_in _ Pm); left; reflexivity). assert (Iy : In y (x :: r)) by (apply (Permutation_in _ (Permutation_sym Pm)); left; reflexivity).
    destruct Ix as [|Ix]; [auto|]. destruct Iy as [|Iy]; [auto|]. exfalso. rewrite List.Forall_forall in F1, F2. assert (A := F1 y Iy). assert (B := F2 x Ix). unfold before in A, B.
    cbn [map] in Nd. apply NoDup_cons_iff in Nd. destruct Nd as (Nd & _). apply Nd. replace (ch_distance x) with (ch_distance y) by lra. apply in_map. exact Iy. }
  subst y. f_equal. apply IH; auto. - apply Permutation_cons_inv with x. exact Pm. - cbn [map] in Nd. apply NoDup_cons_iff in Nd. apply Nd.
Qed.
(** The order in which choppers at different distances are listed does not matter. *)
Theorem C44_chopper_order ei l l' sm de gu ti fi ov : Permutation l l' -> NoDup (map ch_distance l) ->
  make ei (ChopperList l) sm de gu ti fi ov = make ei (ChopperList l') sm de gu ti fi ov.
Proof.
  intros Pm Nd. assert (E : sorted l = sorted l').
  { apply sorted_unique; [apply sorted_sorted..| |].
    - rewrite sorted_perm, Pm. symmetry. apply sorted_perm.
    - apply (Permutation_NoDup (Permutation_map ch_distance (Permutation_sym (sorted_perm l)))). exact Nd. }
  destruct l as [|a r]; [apply Permutation_nil in Pm; subst; reflexivity|]. destruct l' as [|b r']; [apply Permutation_sym, Permutation_nil in Pm; discriminate|].
  unfold make, choppers_of. rewrite E. reflexivity.
Qed.
Print Assumptions C44_chopper_order.
(** C44.  An empty list of choppers is the same as none given: the two default ones, at 0 and 25 m, with opening times of 38 and 6 microseconds. *)
Theorem C44_no_choppers : forall ei sm de gu ti fi ov, make ei (ChopperList []) sm de gu ti fi ov = make ei NoChoppers sm de gu ti fi ov /\
  forall I, make ei NoChoppers sm de gu ti fi ov = Ok I -> map ch_distance (f_choppers I) = [0; 2500] /\ map tau (f_choppers I) = [Ok (Fin 38); Ok (Fin 6)].
Proof.
  intros. split; [reflexivity|]. unfold make. cbn [choppers_of]. intros I H.
  assert (E : f_choppers I = [p_chopper; m_chopper]) by (repeat match type of H with context [match ?x with _ => _ end] => destruct x eqn:?; try discriminate | context [bind ?x _] => destruct x eqn:?; cbn [bind] in H; try discriminate end; injection H as <-; reflexivity).
  rewrite E. split; reflexivity.
Qed.
Print Assumptions C44_no_choppers.
Example C44_chopper_order_ex : Permutation [p_chopper; m_chopper] [m_chopper; p_chopper] /\ NoDup (map ch_distance [p_chopper; m_chopper]).
Proof. split; [apply perm_swap|]. cbn. repeat constructor; cbn; intuition lra. Qed.
Lemma sorted_far l far : (forall x y, In x l -> In y far -> ch_distance x < ch_distance y) -> sorted (l ++ far) = sorted l ++ sorted far.
Proof.
  assert (K : forall x s t, (forall y, In y t -> ch_distance x < ch_distance y) -> insert x (s ++ t) = insert x s ++ t).
  { intros x s t H. induction s as [|y r IH]; cbn [insert app].
    - destruct t as [|y r]; cbn [insert]; [reflexivity|]. destruct (Rlt_dec (ch_distance y) (ch_distance x)) as [L|]; [|reflexivity]. specialize (H y (or_introl eq_refl)). lra.
    - destruct (Rlt_dec (ch_distance y) (ch_distance x)); cbn [app]; [f_equal; exact IH|reflexivity]. }
  induction l as [|x r IH]; intros H; cbn [app sorted]; [reflexivity|]. rewrite IH by (intros; apply H; [right|]; assumption). apply K.
  intros y Hy. apply H; [left; reflexivity|]. apply (Permutation_in _ (sorted_perm far)). exact Hy.
Qed.
(** Only the two choppers nearest to the source count: any beyond them change nothing. *)
Theorem C44_two_choppers c k ei a b far sm de gu ti fi ov I I' Q W :
  (forall y, In y far -> ch_distance a < ch_distance y /\ ch_distance b < ch_distance y) ->
  make ei (ChopperList [a; b]) sm de gu ti fi ov = Ok I -> make ei (ChopperList (a :: b :: far)) sm de gu ti fi ov = Ok I' ->
  calc_in_Q c k I Q W = calc_in_Q c k I' Q W.
Proof.
  intros H M1 M2. assert (E : sorted (a :: b :: far) = sorted [a; b] ++ sorted far).
  { apply (sorted_far [a; b] far). intros x y [<-|[<-|[]]] Hy; apply (H y Hy). }
  unfold make in M1, M2. cbn [choppers_of] in M1, M2. rewrite E in M2.
  assert (Le : exists u v, sorted [a; b] = [u; v]) by (cbn [sorted insert]; destruct (Rlt_dec (ch_distance b) (ch_distance a)); eexists; eexists; reflexivity).
  destruct Le as (u & v & Le). rewrite Le in M1, M2. cbn [app item nth_error bind] in M1, M2.
  assert (EE : f_ei I = f_ei I' /\ f_sample I = f_sample I' /\ f_detector I = f_detector I' /\ f_guides I = f_guides I' /\ f_theta_i I = f_theta_i I' /\ f_phi_i I = f_phi_i I' /\ f_over I = f_over I' /\ f_choppers I = [u; v] /\ f_choppers I' = u :: v :: sorted far).
  { destruct gu as [|g gs].
    - destruct (attr _); cbn [bind] in M1, M2; [|discriminate]. injection M1 as <-. injection M2 as <-. cbn. repeat split.
    - cbn [bind] in M1, M2. injection M1 as <-. injection M2 as <-. cbn. repeat split. }
  destruct EE as (E1 & E2 & E3 & E4 & E5 & E6 & E7 & E8 & E9).
  assert (EP : parameters c I = parameters c I') by (unfold parameters; rewrite E1, E2, E3, E4, E7, E8, E9; reflexivity).
  unfold calc_in_Q, prepare. rewrite EP, E1, E2, E3, E5, E6. reflexivity.
Qed.
Print Assumptions C44_two_choppers.
(** One chopper is not enough: without guides the constructor fails, with guides the calculation does. *)
Theorem C44_one_chopper c k ei a arg sm de gu ti fi ov Q W : arg = OneChopper a \/ arg = ChopperList [a] ->
  (gu = [] -> make ei arg sm de gu ti fi ov = Err IndexError) /\
  (forall t, gu <> [] -> tau a = Ok t -> exists I, make ei arg sm de gu ti fi ov = Ok I /\ calc_in_Q c k I Q W = Raised IndexError).
Proof.
  intros Ha. assert (EC : choppers_of arg = [a]) by (destruct Ha as [->| ->]; reflexivity). split.
  - intros ->. unfold make. rewrite EC. reflexivity.
  - intros t G Et. destruct gu as [|g gs]; [contradiction|]. eexists. unfold make. rewrite EC. split; [reflexivity|].
    unfold calc_in_Q, parameters. cbn [f_choppers item nth_error bind]. rewrite Et. reflexivity.
Qed.
Print Assumptions C44_one_chopper.
Example C44_one_chopper_ex : tau m_chopper = Ok (Fin 6).
Proof. reflexivity. Qed.

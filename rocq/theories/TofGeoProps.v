(** C44: which momentum transfer the flight has, the frame of the matrix, and the units of the prefactor. *)
From Coq Require Import String List ZArith Reals Lra Lia Psatz.
From Coquelicot Require Import Coquelicot.
From Verif Require Import Base LinAlg EnergyModel EnergyProps LatticeModel LatticeProps KinModel KinProps MatModel MatInv CompModel TofModel TofProps TofCovProps TofDefProps.
Import ListNotations.
Local Open Scope R_scope.
Local Notation sum := MatInv.sum.

(** The two sets of constants agree. *)
Definition same_constants (c : consts) (k : constants) : Prop := k_m k = c_m c /\ k_hbar k = c_hbar c /\ k_e k / 10 ^ 3 = / c_J c.
Lemma wave_speed c k v q : physical c -> same_constants c k -> 0 < v -> 0 < q -> c_m c * v ^ 2 / 2 * c_J c = kinetic c q -> k_m k / k_hbar k * v / 10 ^ 10 = q.
Proof.
  intros P (-> & -> & _) Hv Hq E. assert (Hb := hbar_pos c P). destruct P as (_ & _ & Hm & HJ & _). unfold kinetic in E.
  assert (T : 0 < 10 ^ 10) by (apply pow_lt; lra). assert (E2 : (c_m c * v) ^ 2 = (c_hbar c * (q * 10 ^ 10)) ^ 2).
  { apply (Rmult_eq_reg_r (c_J c)); [|lra]. apply (Rmult_eq_reg_r (/ (2 * c_m c))); [|apply Rinv_neq_0_compat; lra]. transitivity (c_m c * v ^ 2 / 2 * c_J c); [field; lra|]. rewrite E. field. lra. }
  assert (A : 0 < c_m c * v) by (apply Rmult_lt_0_compat; assumption). assert (B : 0 < c_hbar c * (q * 10 ^ 10)) by (apply Rmult_lt_0_compat; [assumption|apply Rmult_lt_0_compat; assumption]).
  assert (E3 : c_m c * v = c_hbar c * (q * 10 ^ 10)). { assert (X := Rsqr_inj (c_m c * v) (c_hbar c * (q * 10 ^ 10)) (Rlt_le _ _ A) (Rlt_le _ _ B)). apply X. rewrite !Rsqr_pow2. exact E2. }
  replace (c_m c / c_hbar c * v / 10 ^ 10) with (c_m c * v / c_hbar c / 10 ^ 10) by (field; lra). rewrite E3. field. lra.
Qed.
Lemma flown_observed c k I Q W l sph vi vf ki kf t f : physical c -> same_constants c k -> flown c I Q W l sph vi vf ki kf t f ->
  (forall i, (i < 3)%nat -> observed k sph (nine I l vi vf t f) i = ki * on_sphere (rad (f_theta_i I)) (rad (f_phi_i I)) i - kf * place sph t f i) /\
  observed k sph (nine I l vi vf t f) 3 = W.
Proof.
  intros P SC Fl. destruct (flown_flight _ _ _ _ _ _ _ _ _ _ _ _ P Fl) as (w & Rg & Nw & _ & _ & (W1 & W2 & _) & _). destruct (flight_speeds w Rg) as (S1 & S2). rewrite Nw, W1 in S1. rewrite Nw, W2 in S2.
  destruct Fl as (_ & _ & _ & _ & _ & (Pvi & Ivi) & (Pvf & Ivf) & (Pki & Iki) & (Pkf & Ikf) & _).
  assert (A := wave_speed c k vi ki P SC Pvi Pki ltac:(lra)). assert (B := wave_speed c k vf kf P SC Pvf Pkf ltac:(lra)). unfold observed. rewrite S1, S2. split.
  - intros i Hi. destruct (Nat.ltb_spec i 3); [|lia]. unfold nine. cbn [nth]. rewrite <- A, <- B. unfold Rdiv. ring.
  - cbn [Nat.ltb Nat.leb]. destruct SC as (-> & _ & ->). destruct P as (_ & _ & Hm & HJ & _). replace W with (f_ei I - (f_ei I - W)) by ring. rewrite <- Ivi at 1. rewrite <- Ivf. field. lra.
Qed.

(** Incident beam along the first axis, as by default.  The flight the code differentiates around has the requested energy transfer;
    the length of its momentum transfer is the requested one only in special cases: for a spherical detector, when the point is
    elastic (or q^2 = ki (ki - kf)) and in the horizontal plane ... *)
Theorem C44_own_point c k I Q W l sph vi vf ki kf t f : physical c -> same_constants c k -> flown c I Q W l sph vi vf ki kf t f -> f_theta_i I = 0 -> f_phi_i I = 0 ->
  let q := get_q (s_cell (f_sample I)) Q in
  let x := nine I l vi vf t f in
  let own := observed k sph x 0 ^ 2 + observed k sph x 1 ^ 2 + observed k sph x 2 ^ 2 in
  observed k sph x 3 = W /\
  (cos f = 1 -> (own = q ^ 2 <-> W = 0 \/ q ^ 2 = ki * (ki - kf))) /\
  (W = 0 -> sph = true -> (own = q ^ 2 <-> cos t = 0 \/ cos f = 1)) /\
  (W = 0 -> sph = false -> (own = q ^ 2 <-> cos f ^ 2 = 1)).
Proof.
  intros P SC Fl T0 F0 q x own. destruct (flown_observed c k I Q W l sph vi vf ki kf t f P SC Fl) as (O1 & O2). fold x in O1, O2. split; [exact O2|].
  destruct Fl as (_ & _ & _ & _ & _ & _ & _ & (Pki & Iki) & (Pkf & Ikf) & _ & Pq & _ & (Ht & HS) & _ & Ncf). fold q in Pq, HS.
  assert (Ct : q ^ 2 = 2 * ki ^ 2 * (1 - cos t)). { rewrite <- HS. replace (cos t) with (cos (2 * (t / 2))) by (f_equal; field). rewrite cos_2a_sin. ring. }
  assert (R0' : rad 0 = 0) by (unfold rad; field).
  assert (Ow : own = (ki - kf * place sph t f 0) ^ 2 + (kf * place sph t f 1) ^ 2 + (kf * place sph t f 2) ^ 2).
  { unfold own. rewrite !O1 by lia. rewrite T0, F0, R0'. unfold on_sphere. cbn [nth]. rewrite cos_0, sin_0. ring. }
  assert (St := sin2_cos2 t). assert (Sf := sin2_cos2 f). rewrite !Rsqr_pow2 in St, Sf.
  assert (Os : sph = true -> own = ki ^ 2 + kf ^ 2 - 2 * ki * kf * cos t * cos f).
  { intros E. rewrite Ow, E. unfold place, on_sphere. cbn [nth]. transitivity (ki ^ 2 - 2 * ki * kf * cos t * cos f + kf ^ 2 * ((sin t ^ 2 + cos t ^ 2) * cos f ^ 2 + sin f ^ 2)); [ring|]. rewrite St. replace (1 * cos f ^ 2 + sin f ^ 2) with 1 by lra. ring. }
  assert (Oc : sph = false -> own = ki ^ 2 + kf ^ 2 - 2 * ki * kf * cos t + kf ^ 2 * tan f ^ 2).
  { intros E. rewrite Ow, E. unfold place, on_cylinder. cbn [nth]. transitivity (ki ^ 2 - 2 * ki * kf * cos t + kf ^ 2 * (sin t ^ 2 + cos t ^ 2) + kf ^ 2 * tan f ^ 2); [ring|]. rewrite St. ring. }
  assert (U := unit_pos c P). assert (WK : W = unit_energy c * (ki ^ 2 - kf ^ 2)) by (rewrite kinetic_sq in Iki, Ikf; lra).
  assert (W0 : W = 0 <-> ki = kf).
  { rewrite WK. split; [|intros ->; ring]. intros E. apply Rmult_integral in E. destruct E as [E|E]; [lra|]. nra. }
  split; [|split].
  - intros C1. assert (Z : sin f = 0) by (assert (sin f ^ 2 = 0) by (rewrite C1 in Sf; lra); nra).
    assert (E : own = ki ^ 2 + kf ^ 2 - 2 * ki * kf * cos t). { destruct sph; [rewrite Os, C1 by reflexivity; ring|]. rewrite Oc by reflexivity. unfold tan. rewrite Z. unfold Rdiv. ring. }
    rewrite W0, E. assert (E2 : ki * (ki ^ 2 + kf ^ 2 - 2 * ki * kf * cos t - q ^ 2) = (ki - kf) * (ki * (ki - kf) - q ^ 2)) by (rewrite Ct; ring). split.
    + intros H. rewrite H in E2. replace (ki * (q ^ 2 - q ^ 2)) with 0 in E2 by ring. symmetry in E2. apply Rmult_integral in E2. destruct E2; [left|right]; lra.
    + intros [H|H]; apply (Rmult_eq_reg_l ki); [|lra| |lra]; [replace (ki - kf) with 0 in E2 by lra; lra|]. replace (ki * (ki - kf) - q ^ 2) with 0 in E2 by lra. lra.
  - intros Hw Hs. apply W0 in Hw. rewrite (Os Hs), Ct, <- Hw. split.
    + intros H. assert (X : ki ^ 2 * (cos t * (1 - cos f)) = 0) by lra. apply Rmult_integral in X. destruct X as [X|X]; [assert (0 < ki ^ 2) by (apply pow_lt; exact Pki); lra|]. apply Rmult_integral in X. destruct X; [left|right]; lra.
    + intros [H|H]; rewrite H; ring.
  - intros Hw Hs. apply W0 in Hw. rewrite (Oc Hs), Ct, <- Hw. assert (0 < ki ^ 2) by (apply pow_lt; exact Pki). specialize (Ncf Hs). unfold tan. split.
    + intros H1. assert (X : ki ^ 2 * (sin f / cos f) ^ 2 = 0) by lra. apply Rmult_integral in X. destruct X as [X|X]; [lra|]. assert (Y : sin f / cos f = 0) by nra.
      assert (Z : sin f = 0) by (replace (sin f) with (sin f / cos f * cos f) by (field; exact Ncf); rewrite Y; ring). rewrite Z in Sf. lra.
    + intros H1. assert (Z : sin f = 0) by nra. rewrite Z. unfold Rdiv. ring.
Qed.
Print Assumptions C44_own_point.

(** At an elastic point of the horizontal plane the first axis of the returned matrix is the direction of the momentum transfer (not, as
    documented, the perpendicular one). *)
Theorem C44_frame c k I Q l sph vi vf ki kf t f a : physical c -> same_constants c k -> flown c I Q 0 l sph vi vf ki kf t f -> f_theta_i I = 0 -> f_phi_i I = 0 -> cos f = 1 ->
  angle_ki_Q ki kf (get_q (s_cell (f_sample I)) Q) (-1) false = Ok a ->
  forall i, (i < 3)%nat -> observed k sph (nine I l vi vf t f) i = get_q (s_cell (f_sample I)) Q * rot4 a i 0%nat.
Proof.
  intros P SC Fl T0 F0 C1 EA. destruct (flown_observed c k I Q 0 l sph vi vf ki kf t f P SC Fl) as (O1 & _).
  destruct Fl as (_ & _ & _ & _ & _ & _ & _ & (Pki & Iki) & (Pkf & Ikf) & _ & Pq & _ & (Ht & HS) & _). set (q := get_q (s_cell (f_sample I)) Q) in *.
  assert (Ek : kf = ki) by (apply (kinetic_inj c); auto; lra). subst kf. assert (Pi := PI_RGT_0).
  assert (Sf : sin f = 0) by (assert (X := sin2_cos2 f); rewrite !Rsqr_pow2, C1 in X; nra).
  assert (Ea : a = - acos (sin (t / 2))).
  { unfold angle_ki_Q in EA. destruct (Req_EM_T q 0); [lra|]. assert (2 * ki * q <> 0) by (assert (0 < ki * q) by (apply Rmult_lt_0_compat; assumption); lra). destruct (Req_EM_T (2 * ki * q) 0); [contradiction|]. cbv zeta in EA.
    replace ((ki ^ 2 - ki ^ 2 + q ^ 2) / (2 * ki * q)) with (sin (t / 2)) in EA by (apply (Rmult_eq_reg_l (2 * ki)); [rewrite HS; field|]; lra).
    destruct (Rlt_dec 1 (Rabs (sin (t / 2)))); [discriminate|]. cbn [bind] in EA. unfold sign in EA. destruct (Rlt_dec 0 (-1)); [lra|]. destruct (Rlt_dec (-1) 0); [|lra]. injection EA as <-. ring. }
  assert (Ac : acos (sin (t / 2)) = PI / 2 - t / 2). { rewrite <- cos_shift. apply acos_cos. lra. }
  assert (Ca : cos a = sin (t / 2)) by (rewrite Ea, cos_neg, Ac, cos_shift; reflexivity). assert (Sa : sin a = - cos (t / 2)) by (rewrite Ea, sin_neg, Ac, sin_shift; reflexivity).
  assert (R0' : rad 0 = 0) by (unfold rad; field).
  assert (Pl : forall i, (i < 3)%nat -> place sph t f i = nth i [cos t; sin t; 0] 0).
  { intros i Hi. assert (Ci : (i = 0 \/ i = 1 \/ i = 2)%nat) by lia. destruct sph; destruct Ci as [->|[->| ->]]; unfold place, on_sphere, on_cylinder, tan; cbn [nth]; rewrite ?C1, ?Sf; unfold Rdiv; ring. }
  assert (C2 : cos t = 1 - 2 * sin (t / 2) * sin (t / 2)) by (rewrite <- cos_2a_sin; f_equal; field). assert (S2 : sin t = 2 * sin (t / 2) * cos (t / 2)) by (rewrite <- sin_2a; f_equal; field).
  intros i Hi. rewrite (O1 i Hi), (Pl i Hi), T0, F0, R0'. assert (Ci : (i = 0 \/ i = 1 \/ i = 2)%nat) by lia. unfold on_sphere, rot4, mx. rewrite cos_0, sin_0.
  destruct Ci as [->|[->| ->]]; cbn [nth]; rewrite ?Ca, ?Sa, ?C2, ?S2, <- ?HS; ring.
Qed.
Print Assumptions C44_frame.
Definition ex_same : constants := mkK (c_m ex_c) (c_hbar ex_c) 1.
Lemma ex_same_ok : same_constants ex_c ex_same.
Proof. unfold same_constants, ex_same, ex_c. cbn [k_m k_hbar k_e c_m c_hbar c_J]. repeat split; lra. Qed.
(** An inelastic point where a matrix is returned although the flight has another momentum transfer. *)
Theorem C44_own_point_refuted : exists c k I Q W r0 m l sph vi vf ki kf t f, physical c /\ same_constants c k /\ flown c I Q W l sph vi vf ki kf t f /\ cos f = 1 /\ calc_in_Q c k I Q W = Numbers r0 m /\
  let x := nine I l vi vf t f in observed k sph x 0 ^ 2 + observed k sph x 1 ^ 2 + observed k sph x 2 ^ 2 <> get_q (s_cell (f_sample I)) Q ^ 2.
Proof.
  assert (P : physical ex_c) by apply C17_ex. assert (U := unit_pos _ P). assert (Pi := PI_RGT_0). assert (P4 := PI_4). assert (P3 := PI2_3_2).
  assert (Sq : 2 * PI * sqrt (1 ^ 2 / 36 + 0 ^ 2 / 49) = PI / 3). { replace (1 ^ 2 / 36 + 0 ^ 2 / 49) with ((1 / 6) ^ 2) by field. rewrite sqrt_pow2 by lra. field. }
  set (W := kinetic ex_c 1 - kinetic ex_c (1 / 2)). assert (HW : 0 < W) by (unfold W; rewrite !kinetic_sq; nra).
  destruct C44_default_ex as (I & _ & _ & HM & _).
  assert (EW : kinetic ex_c (1 / 2) = kinetic ex_c 1 - W) by (unfold W; ring).
  destruct (default_flown ex_c (kinetic ex_c 1) I 1 0 W 1 (1 / 2) P HM ltac:(lra) ltac:(lra) eq_refl ltac:(lra) EW ltac:(rewrite Sq; lra) ltac:(rewrite Sq; lra)) as (Gq & Fti & Ffi & lam & s1 & s2 & s3 & vi & vf & t & Plam & Tr & Re).
  assert (K : 0 < c_hbar ex_c) by (apply hbar_pos; exact P). assert (Km : 0 < c_m ex_c) by (unfold ex_c; cbn; lra).
  destruct (C44_default ex_c ex_same (kinetic ex_c 1) I 1 0 W 1 (1 / 2) P Km K ltac:(cbn; lra) HM ltac:(lra) ltac:(lra) eq_refl ltac:(lra) EW ltac:(rewrite Sq; lra) ltac:(rewrite Sq; lra)) as (A & _).
  destruct A as (r0 & m & E & _). { rewrite Sq. rewrite Rabs_right by lra. lra. }
  eexists ex_c, ex_same, I, (V 1 0 0), W, r0, m, _, false, vi, vf, 1, (1 / 2), t, 0. split; [exact P|]. split; [exact ex_same_ok|]. split; [exact Re|]. split; [exact cos_0|]. split; [exact E|].
  cbv zeta. intros H. destruct (C44_own_point _ _ _ _ _ _ _ _ _ _ _ _ _ P ex_same_ok Re Fti Ffi) as (_ & B & _). destruct (proj1 (B cos_0) H) as [Z|Z]; [lra|]. rewrite Gq, Sq in Z. nra.
Qed.
Print Assumptions C44_own_point_refuted.
Example C44_frame_ex : exists I l vi vf t, flown ex_c I (V 1 0 0) 0 l false vi vf 1 1 t 0 /\ f_theta_i I = 0 /\ f_phi_i I = 0 /\ exists a, angle_ki_Q 1 1 (get_q (s_cell (f_sample I)) (V 1 0 0)) (-1) false = Ok a.
Proof.
  assert (P : physical ex_c) by apply C17_ex. assert (Pi := PI_RGT_0). assert (P4 := PI_4). assert (P3 := PI2_3_2).
  assert (Sq : 2 * PI * sqrt (1 ^ 2 / 36 + 0 ^ 2 / 49) = PI / 3). { replace (1 ^ 2 / 36 + 0 ^ 2 / 49) with ((1 / 6) ^ 2) by field. rewrite sqrt_pow2 by lra. field. }
  destruct C44_default_ex as (I & _ & _ & HM & _).
  destruct (default_flown ex_c (kinetic ex_c 1) I 1 0 0 1 1 P HM ltac:(lra) ltac:(lra) eq_refl ltac:(lra) ltac:(ring) ltac:(rewrite Sq; lra) ltac:(rewrite Sq; lra)) as (Gq & Fti & Ffi & lam & s1 & s2 & s3 & vi & vf & t & Plam & Tr & Re).
  eexists I, _, vi, vf, t. split; [exact Re|]. split; [exact Fti|]. split; [exact Ffi|]. assert (T : Rabs (1 - 1) <= get_q (s_cell (f_sample I)) (V 1 0 0) <= 1 + 1) by (rewrite Gq, Sq; replace (1 - 1) with 0 by ring; rewrite Rabs_R0; lra). exact (reached_angle _ _ _ _ _ _ _ _ _ _ _ _ (conj Re T)).
Qed.

(** ** Units of the prefactor *)
(** The same physical point in a cell [s] times as large, with indices [s] times as large: the same matrix, another prefactor. *)
Definition bigger (s : R) (l : lattice) : lattice := mkL (s * la l) (s * lb l) (s * lc l) (alpha l) (beta l) (gamma l).
Definition with_cell (I : tof) (l : lattice) : tof :=
  mkTof (f_ei I) (f_choppers I) (mkSmp l (s_u (f_sample I)) (s_v (f_sample I)) (s_mosaic (f_sample I)) (s_vmosaic (f_sample I)) (s_distance (f_sample I))) (f_detector I) (f_guides I) (f_theta_i I) (f_phi_i I) (f_over I).
Lemma gstar_bigger s l : s <> 0 -> Gstar (bigger s l) = mscal (/ s ^ 2) (Gstar l).
Proof.
  intros Hs. unfold Gstar. assert (E : G (bigger s l) = mscal (s ^ 2) (G l)) by (unfold G, bigger, mscal; cbn [la lb lc alpha beta gamma m11 m12 m13 m21 m22 m23 m31 m32 m33]; f_equal; ring).
  rewrite E. set (g := G l). unfold inv. set (d := det (mscal (s ^ 2) g)). assert (Ed : d = s ^ 6 * det g) by (unfold d, det, mscal; cbn [m11 m12 m13 m21 m22 m23 m31 m32 m33]; ring).
  rewrite Ed, Rinv_mult. unfold mscal. cbn [m11 m12 m13 m21 m22 m23 m31 m32 m33]. set (e := / det g). f_equal; field; exact Hs.
Qed.
Lemma bigger_form2 s l Q t : s <> 0 -> form2 (bigger s l) (vscal t Q) = t ^ 2 / s ^ 2 * form2 l Q.
Proof. intros Hs. unfold form2. rewrite gstar_bigger by exact Hs. set (g := Gstar l). unfold dot, mv, mscal, vscal. cbn [vx vy vz m11 m12 m13 m21 m22 m23 m31 m32 m33]. field. exact Hs. Qed.
Lemma bigger_d s l Q : 0 < s -> get_d_spacing (bigger s l) (vscal s Q) = get_d_spacing l Q.
Proof.
  intros Hs. unfold get_d_spacing. rewrite gstar_bigger by lra. f_equal. f_equal. set (g := Gstar l). unfold dot, mv, mscal, vscal. cbn [vx vy vz m11 m12 m13 m21 m22 m23 m31 m32 m33]. assert (Pi := PI_RGT_0). field. split; lra.
Qed.
Lemma bigger_phi s l u v Q : 0 < s -> get_phi (bigger s l) u v (vscal s Q) = get_phi l u v Q.
Proof.
  intros Hs. unfold get_phi, get_angle_between_planes. cbv zeta. f_equal. f_equal.
  set (w := cross u v). set (fQQ := dot (mv (Gstar l) Q) Q). set (fww := dot (mv (Gstar l) w) w). set (fQw := dot (mv (Gstar l) Q) w).
  assert (E1 : dot (mv (Gstar (bigger s l)) (vscal s Q)) w = / s * fQw) by (unfold fQw; rewrite gstar_bigger by lra; set (g := Gstar l); unfold dot, mv, mscal, vscal; cbn [vx vy vz m11 m12 m13 m21 m22 m23 m31 m32 m33]; field; lra).
  assert (E2 : dot (mv (Gstar (bigger s l)) (vscal s Q)) (vscal s Q) = fQQ) by (unfold fQQ; rewrite gstar_bigger by lra; set (g := Gstar l); unfold dot, mv, mscal, vscal; cbn [vx vy vz m11 m12 m13 m21 m22 m23 m31 m32 m33]; field; lra).
  assert (E3 : dot (mv (Gstar (bigger s l)) w) w = (/ s) ^ 2 * fww) by (unfold fww; rewrite gstar_bigger by lra; set (g := Gstar l); unfold dot, mv, mscal, vscal; cbn [vx vy vz m11 m12 m13 m21 m22 m23 m31 m32 m33]; field; lra).
  rewrite E1, E2, E3. assert (Is : 0 < / s) by (apply Rinv_0_lt_compat; exact Hs). assert (Is2 : 0 <= (/ s) ^ 2) by apply pow2_ge_0.
  destruct (Rle_lt_dec 0 fww) as [L|L].
  - rewrite sqrt_mult by assumption. rewrite sqrt_pow2 by lra. unfold Rdiv. rewrite Rinv_mult, Rinv_inv. transitivity (/ s * s * (fQw * / sqrt fQQ * / sqrt fww)); [ring|]. rewrite Rinv_l by lra. ring.
  - rewrite (sqrt_neg_0 fww) by lra. rewrite (sqrt_neg_0 ((/ s) ^ 2 * fww)) by (assert (X := Rmult_le_compat_l _ _ _ Is2 (Rlt_le _ _ L)); lra). unfold Rdiv. rewrite Rinv_0. ring.
Qed.
Theorem C44_prefactor_units c k I Q s r0 m : 0 < s -> calc_in_Q c k I Q 0 = Numbers r0 m ->
  calc_in_Q c k (with_cell I (bigger s (s_cell (f_sample I)))) (vscal s Q) 0 = Numbers (r0 / s ^ 2) m.
Proof.
  intros Hs. set (I' := with_cell I (bigger s (s_cell (f_sample I)))).
  assert (EP : parameters c I' = parameters c I) by reflexivity.
  assert (EQ : get_q (s_cell (f_sample I')) (vscal s Q) = get_q (s_cell (f_sample I)) Q) by (unfold get_q; f_equal; apply bigger_d; exact Hs).
  assert (EPr : forall ps E Ef sph, prepare I' (vscal s Q) ps E Ef sph = prepare I Q ps E Ef sph).
  { intros. unfold prepare. assert (EA : forall x, angles (s_cell (f_sample I')) (s_u (f_sample I')) (s_v (f_sample I')) (vscal s Q) x = angles (s_cell (f_sample I)) (s_u (f_sample I)) (s_v (f_sample I)) Q x).
    { intros [x| |]; [|reflexivity..]. unfold angles, I', with_cell. cbn [f_sample s_cell s_u s_v].
      assert (P1 : pos (form2 (bigger s (s_cell (f_sample I))) (vscal s Q)) = pos (form2 (s_cell (f_sample I)) Q)).
      { rewrite bigger_form2 by lra. replace (s ^ 2 / s ^ 2) with 1 by (field; lra). rewrite Rmult_1_l. reflexivity. }
      assert (P2 : forall z, pos (form2 (bigger s (s_cell (f_sample I))) z) = pos (form2 (s_cell (f_sample I)) z)).
      { intros z. assert (Z : z = vscal 1 z) by (destruct z as [z1 z2 z3]; unfold vscal; cbn [vx vy vz]; f_equal; ring). rewrite Z at 1. rewrite bigger_form2 by lra. assert (0 < 1 ^ 2 / s ^ 2) by (apply Rdiv_lt_0_compat; apply pow_lt; lra).
        unfold pos. set (y := form2 _ z). destruct (Rlt_dec 0 (1 ^ 2 / s ^ 2 * y)) as [A|A]; destruct (Rlt_dec 0 y) as [B|B]; auto; exfalso; nra. }
      rewrite P1, P2, bigger_phi by exact Hs. unfold get_two_theta. rewrite bigger_d by exact Hs. reflexivity. }
    rewrite EA. reflexivity. }
  unfold calc_in_Q. rewrite EP. replace (f_ei I') with (f_ei I) by reflexivity. replace (f_detector I') with (f_detector I) by reflexivity. rewrite EQ.
  destruct (parameters c I) as [ps|]; [|discriminate]. cbv zeta. destruct (wavevec (values_of c (f_ei I))) as [ki| |]; [|intros H; exact (False_ind _ ltac:(destruct (spherical (f_detector I)); discriminate H))..].
  destruct (kfree c 0 ki true) as [[kf| |]|]; [|destruct (spherical (f_detector I)); discriminate..|discriminate]. destruct (spherical (f_detector I)) as [sph|]; [|discriminate].
  destruct (Req_EM_T kf 0); [discriminate|]. destruct (build c QWavevector kf) as [Ef|]; [|discriminate]. rewrite EPr.
  destruct (prepare I Q ps (values_of c (f_ei I)) Ef sph) as [w|]; [|destruct (angle_ki_Q _ _ _ _ _); discriminate].
  destruct (minv 4 (covariance k w)) as [reso|]; [|discriminate]. destruct (angle_ki_Q ki kf _ (-1) false) as [a|]; [|discriminate].
  set (mm := mul 4 (tr (rot4 a)) (mul 4 reso (rot4 a))).
  assert (EF : fwhm mm (point4 (vscal s Q) 0) = s ^ 2 * fwhm mm (point4 Q 0)).
  { unfold fwhm. rewrite <- sum_scal. apply sum_ext. intros i Hi. rewrite <- sum_scal. apply sum_ext. intros j Hj.
    assert (X : forall i, (i < 4)%nat -> point4 (vscal s Q) 0 i = s * point4 Q 0 i). { intros i' Hi'. assert (Ci : (i' = 0 \/ i' = 1 \/ i' = 2 \/ i' = 3)%nat) by lia. destruct Ci as [->|[->|[->| ->]]]; unfold point4, vscal; cbn [nth vx vy vz]; ring. }
    rewrite (X i Hi), (X j Hj). ring. }
  rewrite EF. set (F := fwhm mm (point4 Q 0)). destruct (Req_EM_T F 0) as [|NF]; [discriminate|]. intros H. injection H as <- <-.
  assert (0 < s ^ 2) by (apply pow_lt; exact Hs). destruct (Req_EM_T (s ^ 2 * F) 0) as [Z|_]; [apply Rmult_integral in Z; destruct Z; lra|]. f_equal. field. split; [exact NF|lra].
Qed.
Print Assumptions C44_prefactor_units.

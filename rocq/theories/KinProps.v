(** Properties of the scattering triangle (C36). *)
From Coq Require Import Reals List Lra Lia Psatz.
From Verif Require Import Base EnergyModel EnergyProps KinModel.
Local Open Scope R_scope.

(** Kinetic energy in meV of a neutron of wavevector k in inverse Angstrom, (hbar k)^2 / 2m. *)
Definition kinetic (c : consts) (k : R) : R := (c_hbar c * (k * 10 ^ 10)) ^ 2 / (2 * c_m c) * c_J c.
Definition unit_energy (c : consts) : R := (c_hbar c * 10 ^ 10) ^ 2 / (2 * c_m c) * c_J c.
Lemma kinetic_sq c k : kinetic c k = unit_energy c * k ^ 2.
Proof. unfold kinetic, unit_energy. unfold Rdiv. ring. Qed.
Lemma unit_pos c : physical c -> 0 < unit_energy c.
Proof. intros P. assert (Hb := hbar_pos c P). destruct P as (Hh & Hk & Hm & HJ & _). unfold unit_energy. assert (T := pow_lt 10 10 ltac:(lra)). apply Rmult_lt_0_compat; auto. apply Rdiv_lt_0_compat; [apply pow_lt, Rmult_lt_0_compat; auto|lra]. Qed.
Lemma wave_energy c W : physical c -> 0 <= W -> exists k, wavevec (values_of c W) = Fin k /\ kinetic c k = W.
Proof.
  intros P HW. destruct (Req_dec W 0) as [->|N].
  - exists 0. unfold values_of. cbn [wavevec]. destruct (Req_EM_T 0 0); [|congruence]. split; auto. rewrite kinetic_sq. ring.
  - destruct (C17_relations c QEnergy W (values_of c W) P ltac:(lra) eq_refl) as (l & k & v & _ & Hk & _ & _ & E & _). exists k. split; [exact Hk|]. unfold kinetic. symmetry. exact E.
Qed.
(** C36.  Energy conservation: for an energy loss W >= 0 the free wavevector carries exactly the remaining (or, with the final
    one fixed, the additional) kinetic energy, and the error is raised exactly when there is not enough energy. *)
Theorem C36_kfree : forall c W k0, physical c -> 0 <= W ->
  (W <= kinetic c k0 -> exists k, kfree c W k0 true = Ok (Fin k) /\ 0 <= k /\ kinetic c k0 - kinetic c k = W) /\
  (kinetic c k0 < W -> kfree c W k0 true = Err ScatteringTriangleError) /\
  (exists k, kfree c W k0 false = Ok (Fin k) /\ 0 <= k /\ kinetic c k - kinetic c k0 = W).
Proof.
  intros c W k0 P HW. destruct (wave_energy c W P HW) as (k & Hk & Ek). assert (U := unit_pos c P). unfold kfree. rewrite Hk. cbv zeta. rewrite !kinetic_sq in *.
  assert (Sq : forall a, 0 <= a -> sqrt a ^ 2 = a) by (intros; rewrite <- Rsqr_pow2; now apply Rsqr_sqrt). split; [|split].
  - intros L. destruct (Rlt_dec (- k ^ 2 + k0 ^ 2) 0) as [Lt|Ge].
    + exfalso. apply (Rmult_lt_compat_l (unit_energy c)) in Lt; auto. lra.
    + eexists. split; [reflexivity|]. split; [apply sqrt_pos|]. rewrite kinetic_sq, Sq by lra. lra.
  - intros L. destruct (Rlt_dec (- k ^ 2 + k0 ^ 2) 0) as [Lt|Ge]; auto. exfalso. assert (X : 0 <= unit_energy c * (- k ^ 2 + k0 ^ 2)) by (apply Rmult_le_pos; lra). lra.
  - assert (A := pow2_ge_0 k). assert (B := pow2_ge_0 k0). destruct (Rlt_dec (k ^ 2 + k0 ^ 2) 0) as [Lt|Ge]; [lra|]. eexists. split; [reflexivity|]. split; [apply sqrt_pos|]. rewrite kinetic_sq, Sq by lra. lra.
Qed.
Print Assumptions C36_kfree.
Example C36_kfree_ex : physical ex_c /\ 0 <= 5 /\ 5 <= kinetic ex_c (1 / 10 ^ 5).
Proof.
  split; [apply C17_ex|]. split; [lra|]. unfold kinetic, ex_c. cbn [c_hbar c_m c_J]. assert (P4 := PI_4). assert (P0 := PI_RGT_0).
  replace ((6 / (2 * PI) * (1 / 10 ^ 5 * 10 ^ 10)) ^ 2 / (2 * 2) * 1000) with (2250 * (10 ^ 5) ^ 2 / (PI * PI)) by (field; lra).
  apply (Rmult_le_reg_r (PI * PI)); [nra|]. replace (2250 * (10 ^ 5) ^ 2 / (PI * PI) * (PI * PI)) with (2250 * (10 ^ 5) ^ 2) by (field; lra). nra.
Qed.
(** C36.  A neutron energy gain, W < 0, gives nan instead of the wavevector that conserves energy. *)
Theorem C36_gain : forall c W k0 b, physical c -> W < 0 -> kfree c W k0 b = Ok NaN.
Proof.
  intros c W k0 b (Hh & _ & Hm & HJ & _) N. unfold kfree, values_of. cbn [wavevec]. destruct (Req_EM_T W 0); [lra|]. unfold wavevector_of, wavelength_of, fsqrt.
  destruct (Rle_lt_dec 0 (c_h c ^ 2 / (2 * c_m c * W / c_J c))) as [L|L]; [|reflexivity]. exfalso.
  assert (A : 0 < c_h c ^ 2) by (apply pow_lt; auto). assert (B : 2 * c_m c * W / c_J c < 0). { unfold Rdiv. assert (0 < / c_J c) by now apply Rinv_0_lt_compat. assert (2 * c_m c * W < 0) by nra. nra. }
  assert (C := Rinv_lt_0_compat _ B). unfold Rdiv in L at 1. nra.
Qed.
Print Assumptions C36_gain.
Theorem C36_gain_refuted : exists c W k0 k, physical c /\ 0 < k /\ kinetic c k0 - kinetic c k = W /\ kfree c W k0 true = Ok NaN.
Proof.
  assert (P : physical ex_c) by apply C17_ex. exists ex_c, (kinetic ex_c 1 - kinetic ex_c 2), 1, 2. split; auto. split; [lra|]. split; auto. apply C36_gain; auto. rewrite !kinetic_sq. assert (U := unit_pos _ P). nra.
Qed.
Print Assumptions C36_gain_refuted.

(** C36.  Law of cosines, for non-zero ki and Q. *)
Theorem C36_angle : forall ki kf Q g, 0 < ki -> 0 <= kf -> 0 < Q -> g <> 0 ->
  (Rabs (ki - Q) <= kf <= ki + Q -> exists a, angle_ki_Q ki kf Q g false = Ok a /\ kf ^ 2 = ki ^ 2 + Q ^ 2 - 2 * ki * Q * cos a /\ Rabs a <= PI /\ 0 <= a * g /\ angle_ki_Q ki kf Q g true = Ok ((PI - Rabs a) * sign g)) /\
  (~ (Rabs (ki - Q) <= kf <= ki + Q) -> forall o, angle_ki_Q ki kf Q g o = Err ScatteringTriangleError).
Proof.
  intros ki kf Q g Hi Hf HQ Hg. assert (D : 0 < 2 * ki * Q) by (apply Rmult_lt_0_compat; lra). unfold angle_ki_Q. destruct (Req_EM_T Q 0); [lra|]. destruct (Req_EM_T (2 * ki * Q) 0); [lra|]. cbv zeta.
  set (c := (ki ^ 2 - kf ^ 2 + Q ^ 2) / (2 * ki * Q)). assert (Hc : c * (2 * ki * Q) = ki ^ 2 - kf ^ 2 + Q ^ 2) by (unfold c; field; lra).
  assert (T : Rabs c <= 1 <-> Rabs (ki - Q) <= kf <= ki + Q).
  { assert (A : Rabs c <= 1 <-> - (2 * ki * Q) <= c * (2 * ki * Q) <= 2 * ki * Q).
    { split; intros H; [apply Rabs_def2b in H || (assert (H1 := Rle_abs c); assert (H2 := Rle_abs (- c)); rewrite Rabs_Ropp in H2); split; nra|]. apply Rabs_le. split; nra. }
    rewrite A, Hc. split.
    - intros [L1 L2]. split.
      + apply Rsqr_incr_0; [|apply Rabs_pos|lra]. rewrite <- Rsqr_abs. unfold Rsqr. nra.
      + apply Rsqr_incr_0; [|lra|lra]. unfold Rsqr. nra.
    - intros [L1 L2]. apply Rsqr_incr_1 in L1; [|apply Rabs_pos|lra]. rewrite <- Rsqr_abs in L1. unfold Rsqr in L1. split; nra. }
  split.
  - intros L. apply T in L. destruct (Rlt_dec 1 (Rabs c)); [lra|]. cbn [bind]. assert (B : -1 <= c <= 1) by (assert (H1 := Rle_abs c); assert (H2 := Rle_abs (- c)); rewrite Rabs_Ropp in H2; lra).
    assert (Bd := acos_bound c). assert (Ca : cos (acos c) = c) by now apply cos_acos. exists (acos c * sign g). split; auto. unfold sign.
    destruct (Rlt_dec 0 g) as [G|G]; [|destruct (Rlt_dec g 0) as [G'|G']; [|lra]].
    + rewrite Rmult_1_r, Ca, Rabs_right by lra. split; [lra|]. split; [lra|]. split; [apply Rmult_le_pos; lra|reflexivity].
    + replace (acos c * -1) with (- acos c) by ring. rewrite cos_neg, Ca, Rabs_Ropp, Rabs_right by lra. split; [lra|]. split; [lra|]. split; [nra|reflexivity].
  - intros N o. destruct (Rlt_dec 1 (Rabs c)); [reflexivity|]. exfalso. apply N, T. lra.
Qed.
Print Assumptions C36_angle.
Example C36_angle_ex : 0 < 3 /\ 0 <= 4 /\ 0 < 5 /\ -1 <> 0 /\ Rabs (3 - 5) <= 4 <= 3 + 5.
Proof. repeat split; try lra. apply Rabs_le. lra. Qed.
(** C36.  At Q = 0 any pair of wavevectors gives a right angle, with the sign of the goniometer direction. *)
Theorem C36_zero : forall ki kf g o, g <> 0 -> exists a, angle_ki_Q ki kf 0 g o = Ok a /\ Rabs a = PI / 2 /\ 0 < a * g.
Proof.
  intros ki kf g o G. assert (P := PI_RGT_0). unfold angle_ki_Q. destruct (Req_EM_T 0 0); [|congruence]. cbn [bind]. eexists. split; [reflexivity|].
  replace (if o then PI - PI / 2 else PI / 2) with (PI / 2) by (destruct o; lra). unfold sign. destruct (Rlt_dec 0 g); [|destruct (Rlt_dec g 0); [|lra]].
  - rewrite Rmult_1_r. split; [apply Rabs_right; lra|]. apply Rmult_lt_0_compat; lra.
  - replace (PI / 2 * -1) with (- (PI / 2)) by ring. rewrite Rabs_Ropp. split; [apply Rabs_right; lra|]. replace (- (PI / 2) * g) with (PI / 2 * - g) by ring. apply Rmult_lt_0_compat; lra.
Qed.
Print Assumptions C36_zero.
(** C36.  At Q = 0 any pair of wavevectors is accepted and the angle is a right one. *)
Theorem C36_zero_refuted : exists ki kf, 0 < ki /\ 0 < kf /\ ki <> kf /\ angle_ki_Q ki kf 0 (-1) false = Ok (- (PI / 2)).
Proof. exists 1, 2. split; [lra|]. split; [lra|]. split; [lra|]. unfold angle_ki_Q. destruct (Req_EM_T 0 0); [|congruence]. cbn [bind]. f_equal. unfold sign. destruct (Rlt_dec 0 (-1)); [lra|]. destruct (Rlt_dec (-1) 0); lra. Qed.
Print Assumptions C36_zero_refuted.
(** C36.  A goniometer direction of zero gives the angle zero, not a turned triangle: the direction only decides the sign. *)
Theorem C36_directions : forall ki kf Q g o a, angle_ki_Q ki kf Q g o = Ok a ->
  angle_ki_Q ki kf Q 0 o = Ok 0 /\ angle_ki_Q ki kf Q (- g) o = Ok (- a) /\ forall s, 0 < s -> angle_ki_Q ki kf Q (s * g) o = Ok a.
Proof.
  intros ki kf Q g o a. unfold angle_ki_Q. destruct (if Req_EM_T Q 0 then _ else _) as [b|e]; cbn [bind]; [|discriminate]. intros H. injection H as <-.
  set (w := if o then PI - b else b). unfold sign. split; [|split].
  - destruct (Rlt_dec 0 0); [lra|]. f_equal. ring.
  - destruct (Rlt_dec 0 (- g)), (Rlt_dec 0 g); try lra; destruct (Rlt_dec (- g) 0), (Rlt_dec g 0); try lra; f_equal; ring.
  - intros s S. destruct (Rlt_dec 0 g) as [G|G].
    + assert (X := Rmult_lt_0_compat _ _ S G). destruct (Rlt_dec 0 (s * g)); [reflexivity|lra].
    + destruct (Rlt_dec g 0) as [L|L].
      * assert (X : s * g < 0) by (replace (s * g) with (- (s * - g)) by ring; assert (Y : 0 < s * - g) by (apply Rmult_lt_0_compat; lra); lra).
        destruct (Rlt_dec 0 (s * g)); [lra|]. destruct (Rlt_dec (s * g) 0); [reflexivity|lra].
      * assert (g = 0) by lra. subst g. rewrite Rmult_0_r. destruct (Rlt_dec 0 0); [lra|]. reflexivity.
Qed.
Print Assumptions C36_directions.
Example C36_directions_case : angle_ki_Q 1 2 0 3 false = Ok (PI / 2) /\ angle_ki_Q 1 2 0 (-3) false = Ok (- (PI / 2)).
Proof.
  assert (H : angle_ki_Q 1 2 0 3 false = Ok (PI / 2)).
  { unfold angle_ki_Q. destruct (Req_EM_T 0 0); [|lra]. cbn [bind]. unfold sign. destruct (Rlt_dec 0 3); [|lra]. f_equal. ring. }
  split; [exact H|]. destruct (C36_directions _ _ _ _ _ _ H) as (_ & X & _). exact X.
Qed.

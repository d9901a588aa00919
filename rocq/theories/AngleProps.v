(** C77: angles of a triple-axis spectrometer. *)
From Coq Require Import List ZArith Reals Lra Lia Psatz.
From Verif Require Import Base LinAlg LatticeModel LatticeProof LatticeProps EnergyModel EnergyProps TasModel TasCase AngleModel.
From Verif Require MatModel EllipseProps.
Import ListNotations.
Local Open Scope R_scope.

(** * Wave numbers *)
(** What a user means by the fixed energy: kf is fixed unless infin is 1; ki^2 - kf^2 is 0.4826 times the energy transfer. *)
Definition numbers (c : consts) (t : tas) (w ki kf : R) : Prop :=
  0 <= ki /\ 0 <= kf /\ ki ^ 2 - kf ^ 2 = 4826 / 10000 * w /\
  exists k, 0 <= k /\ wavevec (values_of c (t_efixed t)) = Fin k /\ match t_infin t with Some i => (i = 1 -> ki = k) /\ (i = -1 -> kf = k) /\ (i <> 1 -> i <> -1 -> 2 * ki ^ 2 - kf ^ 2 = k ^ 2) | None => kf = k end.
Lemma osqrt_sq x y : 0 <= y -> x = y ^ 2 -> osqrt x = Some y.
Proof. intros P ->. unfold osqrt. destruct Rle_dec as [_|N]; [|exfalso; apply N; nra]. f_equal. replace (y ^ 2) with (y * y) by ring. apply sqrt_square. exact P. Qed.
Lemma numbers_ok c t w ki kf : numbers c t w ki kf -> ki_of c t w = Some ki /\ kf_of c t w = Some kf.
Proof.
  intros (Pi & Pf & D & k & Pk & Ek & F). unfold ki_of, kf_of. rewrite Ek. cbn [ofl obind]. unfold fx_of, f_conv. destruct (t_infin t) as [i|].
  - destruct F as (F1 & F2 & F3). destruct (Req_EM_T i (-1)) as [E|N]; destruct (Req_EM_T i 1) as [E1|N1]; [lra| | |].
    + rewrite (F2 E) in *. split; apply osqrt_sq; auto; lra.
    + rewrite (F1 E1) in *. split; apply osqrt_sq; auto; lra.
    + specialize (F3 N1 N). split; apply osqrt_sq; auto; lra.
  - subst kf. split; apply osqrt_sq; auto; lra.
Qed.

(** * Bragg angles *)
Definition side (d : R) : Prop := d = 1 \/ d = -1.
Lemma rad_deg x : rad (deg x) = x.
Proof. unfold rad, deg. field. apply PI_neq0. Qed.
Lemma bragg_ok dir tau k : side dir -> 0 < tau -> 0 < k ->
  (tau <= 2 * k -> exists a, bragg dir (2 * PI / tau) (Some k) = Some a /\ 2 * k * sin a = dir * tau /\ - (PI / 2) <= a <= PI / 2) /\
  (2 * k < tau -> bragg dir (2 * PI / tau) (Some k) = None).
Proof.
  intros Sd Pt Pk. assert (PP := PI_RGT_0). assert (N : 2 * PI / tau * k <> 0) by (apply Rgt_not_eq, Rmult_lt_0_compat; [apply Rdiv_lt_0_compat; lra|exact Pk]).
  assert (E : PI / (2 * PI / tau * k) = tau / (2 * k)) by (field; lra). unfold bragg, odiv. cbn [obind]. destruct (Req_EM_T _ 0) as [Z|_]; [contradiction|]. cbn [obind]. rewrite E. unfold oasin.
  assert (Pq : 0 < tau / (2 * k)) by (apply Rdiv_lt_0_compat; lra). rewrite Rabs_right by lra. split; intros H.
  - assert (L : tau / (2 * k) <= 1) by (apply (Rmult_le_reg_r (2 * k)); [lra|]; unfold Rdiv; rewrite Rmult_assoc, Rinv_l by lra; lra).
    destruct Rle_dec as [_|Nl]; [|contradiction]. cbn [obind]. eexists. split; [reflexivity|]. assert (B := asin_bound (tau / (2 * k))). assert (Es : sin (asin (tau / (2 * k))) = tau / (2 * k)) by (apply sin_asin; lra).
    destruct Sd as [-> | ->].
    + rewrite !Rmult_1_l, Es. split; [field; lra|lra].
    + replace (-1 * asin (tau / (2 * k))) with (- asin (tau / (2 * k))) by ring. rewrite sin_neg, Es. split; [field; lra|lra].
  - destruct Rle_dec as [L|_]; [|reflexivity]. exfalso. apply (Rmult_le_compat_r (2 * k)) in L; [|lra]. unfold Rdiv in L. rewrite Rmult_assoc, Rinv_l in L by lra. lra.
Qed.

(** The angles a1 and a2 of a crystal with planes [tau] for neutrons of wave number [k], in degrees; nan when Bragg's law has no solution. *)
Definition crystal_angles (dir tau k : R) (a1 a2 : option R) : Prop :=
  (tau <= 2 * k -> exists a, a1 = Some a /\ a2 = Some (2 * a) /\ 2 * k * sin (rad a) = dir * tau /\ -90 <= a <= 90) /\
  (2 * k < tau -> a1 = None /\ a2 = None).
Lemma crystal_ok dir tau k : side dir -> 0 < tau -> 0 < k -> crystal_angles dir tau k (odeg (bragg dir (2 * PI / tau) (Some k))) (odeg (twice (bragg dir (2 * PI / tau) (Some k)))).
Proof.
  intros Sd Pt Pk. destruct (bragg_ok dir tau k Sd Pt Pk) as [A B]. split; intros H.
  - destruct (A H) as [a (E & S & L)]. rewrite E. exists (deg a). split; [reflexivity|]. split; [simpl; f_equal; unfold deg, Rdiv; ring|]. rewrite rad_deg. split; [exact S|].
    assert (PP := PI_RGT_0). unfold deg. assert (I : PI * / PI = 1) by (apply Rinv_r; lra). assert (0 < / PI) by (apply Rinv_0_lt_compat; lra). unfold Rdiv. split; nra.
  - rewrite (B H). split; reflexivity.
Qed.

Theorem C77_crystals : forall c t l o1 o2 hkl w ki kf,
  numbers c t w ki kf -> 0 < ki -> 0 < kf -> side (x_dir (t_mono t)) -> side (x_dir (t_ana t)) -> 0 < x_tau (t_mono t) -> 0 < x_tau (t_ana t) ->
  exists a1 a2 a3 a4 a5 a6 Q, get_angles_and_Q c t l o1 o2 hkl w = Ok ([a1; a2; a3; a4; a5; a6], Q) /\
    crystal_angles (x_dir (t_mono t)) (x_tau (t_mono t)) ki a1 a2 /\ crystal_angles (x_dir (t_ana t)) (x_tau (t_ana t)) kf a5 a6.
Proof.
  intros c t l o1 o2 hkl w ki kf Nb Pi Pf Sm Sa Tm Ta. destruct (numbers_ok c t w ki kf Nb) as [Ei Ef]. unfold get_angles_and_Q, spacing.
  destruct (Req_EM_T (x_tau (t_mono t)) 0); [lra|]. destruct (Req_EM_T (x_tau (t_ana t)) 0); [lra|]. cbn [bind map]. rewrite Ei, Ef.
  do 7 eexists. split; [reflexivity|]. split; apply crystal_ok; auto.
Qed.
Print Assumptions C77_crystals.

Theorem C77_no_planes : forall c t l o1 o2 hkl w, x_tau (t_mono t) = 0 \/ x_tau (t_ana t) = 0 -> get_angles_and_Q c t l o1 o2 hkl w = Err ZeroDivisionError.
Proof.
  intros c t l o1 o2 hkl w H. unfold get_angles_and_Q, spacing. destruct (Req_EM_T (x_tau (t_mono t)) 0) as [E|N]; [reflexivity|]. cbn [bind].
  destruct (Req_EM_T (x_tau (t_ana t)) 0) as [E|N']; [reflexivity|]. destruct H; contradiction.
Qed.
Print Assumptions C77_no_planes.

(** * The scattering triangle *)
Lemma oacos_ok x : -1 <= x <= 1 -> oacos x = Some (acos x).
Proof. intros H. unfold oacos. destruct Rle_dec as [_|N]; [reflexivity|]. exfalso. apply N. apply Rabs_le. exact H. Qed.
Lemma abs_between x y : Rabs x <= y -> - y <= x <= y.
Proof. intros H. assert (A := Rle_abs x). assert (B := Rle_abs (- x)). rewrite Rabs_Ropp in B. lra. Qed.
Lemma oacos_no x : x < -1 \/ 1 < x -> oacos x = None.
Proof. intros H. unfold oacos. destruct Rle_dec as [L|_]; [|reflexivity]. exfalso. apply abs_between in L. lra. Qed.
Lemma frac_in x y : 0 < y -> - y <= x <= y -> -1 <= x / y <= 1.
Proof. intros P H. split; apply (Rmult_le_reg_r y); auto; unfold Rdiv; rewrite Rmult_assoc, Rinv_l by lra; lra. Qed.
Lemma frac_out x y : 0 < y -> x < - y \/ y < x -> x / y < -1 \/ 1 < x / y.
Proof. intros P [H|H]; [left|right]; apply (Rmult_lt_reg_r y); auto; unfold Rdiv; rewrite Rmult_assoc, Rinv_l by lra; lra. Qed.

(** The turn of (x, y) by an angle in degrees. *)
Definition turn (a : R) (x y : R) : R * R := (x * cos (rad a) - y * sin (rad a), x * sin (rad a) + y * cos (rad a)).
(** The angles a3 and a4, in degrees, that bring the vector (x, y) of length Q into the scattering position: the sample turned by a3, beam
    along the first axis, scattered by a4; both counted in the sense of the sample's side. *)
Definition sample_angles (ss ki kf x y z : R) (a3 a4 : option R) : Prop := let Q := sqrt (x ^ 2 + y ^ 2 + z ^ 2) in
  (Rabs (ki - kf) <= Q <= ki + kf -> exists a b, a3 = Some a /\ a4 = Some b /\ 0 <= ss * b <= 180 /\ Q ^ 2 = ki ^ 2 + kf ^ 2 - 2 * ki * kf * cos (rad b) /\
    (z = 0 -> let '(x', y') := turn (ss * a) x y in ki - x' = kf * cos (rad (ss * b)) /\ - y' = kf * sin (rad (ss * b)))) /\
  (Q < Rabs (ki - kf) \/ ki + kf < Q -> a3 = None /\ a4 = None).

Lemma sample_ok ss ki kf q : side ss -> 0 < ki -> 0 < kf -> 0 < q_len q ->
  sample_angles ss ki kf (vx q) (vy q) (vz q) (odeg (a3_of ss ki kf (q_len q) q)) (odeg (a4_of ss ki kf (q_len q))).
Proof.
  intros Ss Pi Pf PQ. unfold sample_angles. fold (q_len q). cbv zeta. set (Q := q_len q) in *. assert (Pik : 0 < 2 * ki * kf) by nra. assert (PQi : 0 < 2 * (Q * ki)) by nra.
  assert (SS : ss * ss = 1) by (destruct Ss as [-> | ->]; ring).
  assert (E4 : a4_of ss ki kf Q = obind (oacos ((ki ^ 2 + kf ^ 2 - Q ^ 2) / (2 * ki * kf))) (fun a => Some (2 * (ss * (5 / 10) * a)))).
  { unfold a4_of, odiv. destruct (Req_EM_T (2 * ki * kf) 0); [lra|reflexivity]. }
  assert (E3 : a3_of ss ki kf Q q = obind (oacos ((ki ^ 2 + Q ^ 2 - kf ^ 2) / (2 * (Q * ki)))) (fun a => Some (ss * (- MatModel.atan2 (vy q) (vx q) - a)))).
  { unfold a3_of, odiv. destruct (Req_EM_T (-2 * (Q * ki)) 0); [lra|]. cbn [obind]. f_equal. f_equal. field. split; lra. }
  rewrite E3, E4. split.
  - intros [L1 L2]. apply abs_between in L1.
    assert (B4 : -1 <= (ki ^ 2 + kf ^ 2 - Q ^ 2) / (2 * ki * kf) <= 1) by (apply frac_in; [exact Pik|nra]).
    assert (B3 : -1 <= (ki ^ 2 + Q ^ 2 - kf ^ 2) / (2 * (Q * ki)) <= 1) by (apply frac_in; [exact PQi|nra]).
    rewrite (oacos_ok _ B3), (oacos_ok _ B4). cbn [obind odeg option_map]. set (u := (ki ^ 2 + kf ^ 2 - Q ^ 2) / (2 * ki * kf)) in *. set (v := (ki ^ 2 + Q ^ 2 - kf ^ 2) / (2 * (Q * ki))) in *.
    assert (Eu : 2 * ki * kf * u = ki ^ 2 + kf ^ 2 - Q ^ 2) by (unfold u; field; lra). assert (Ev : 2 * (Q * ki) * v = ki ^ 2 + Q ^ 2 - kf ^ 2) by (unfold v; field; lra).
    set (ph := MatModel.atan2 (vy q) (vx q)). eexists. eexists. split; [reflexivity|]. split; [reflexivity|].
    assert (Ab := acos_bound u). assert (PP := PI_RGT_0).
    assert (E5 : ss * deg (2 * (ss * (5 / 10) * acos u)) = deg (acos u)). { unfold deg. replace (ss * (2 * (ss * (5 / 10) * acos u) * 180 / PI)) with (ss * ss * (acos u * 180 / PI)) by (field; lra). rewrite SS. ring. }
    rewrite E5, !rad_deg. split; [apply deg_range; exact Ab|].
    assert (Ec : cos (2 * (ss * (5 / 10) * acos u)) = u). { replace (2 * (ss * (5 / 10) * acos u)) with (ss * acos u) by field. destruct Ss as [-> | ->]; [rewrite Rmult_1_l|replace (-1 * acos u) with (- acos u) by ring; rewrite cos_neg]; apply cos_acos; lra. }
    split; [rewrite Ec; lra|]. intros Z. unfold turn.
    assert (E6 : ss * deg (ss * (- ph - acos v)) = deg (- ph - acos v)). { unfold deg. replace (ss * (ss * (- ph - acos v) * 180 / PI)) with (ss * ss * ((- ph - acos v) * 180 / PI)) by (field; lra). rewrite SS. ring. }
    rewrite E6, !rad_deg. rewrite cos_acos by lra.
    destruct (EllipseProps.atan2_polar (vy q) (vx q)) as [Px Py]. fold ph in Px, Py. assert (EQ : sqrt (vx q * vx q + vy q * vy q) = Q). { unfold Q, q_len. rewrite Z. f_equal. ring. } rewrite EQ in Px, Py.
    assert (Sp := sin2_cos2 ph). unfold Rsqr in Sp. assert (EX : vx q * cos (- ph - acos v) - vy q * sin (- ph - acos v) = Q * v).
    { rewrite <- Px, <- Py. replace (- ph - acos v) with (- (ph + acos v)) by ring. rewrite cos_neg, sin_neg, cos_plus, sin_plus, cos_acos by lra. transitivity (Q * v * (sin ph * sin ph + cos ph * cos ph)); [ring|rewrite Sp; ring]. }
    assert (EY : vx q * sin (- ph - acos v) + vy q * cos (- ph - acos v) = - (Q * sin (acos v))).
    { rewrite <- Px, <- Py. replace (- ph - acos v) with (- (ph + acos v)) by ring. rewrite cos_neg, sin_neg, cos_plus, sin_plus. transitivity (- (Q * sin (acos v)) * (sin ph * sin ph + cos ph * cos ph)); [ring|rewrite Sp; ring]. }
    rewrite EX, EY. split; [nra|]. rewrite Ropp_involutive.
    assert (S1 : 0 <= sin (acos v)) by (apply sin_ge_0; apply acos_bound). assert (S2 : 0 <= sin (acos u)) by (apply sin_ge_0; apply acos_bound).
    apply Rsqr_inj; [apply Rmult_le_pos; lra|apply Rmult_le_pos; lra|]. unfold Rsqr.
    assert (T1 : sin (acos v) * sin (acos v) = 1 - v * v) by (assert (H := sin2_cos2 (acos v)); unfold Rsqr in H; rewrite cos_acos in H by lra; lra).
    assert (T2 : sin (acos u) * sin (acos u) = 1 - u * u) by (assert (H := sin2_cos2 (acos u)); unfold Rsqr in H; rewrite cos_acos in H by lra; lra).
    replace (Q * sin (acos v) * (Q * sin (acos v))) with (Q * Q * (sin (acos v) * sin (acos v))) by ring. replace (kf * sin (acos u) * (kf * sin (acos u))) with (kf * kf * (sin (acos u) * sin (acos u))) by ring. rewrite T1, T2.
    assert (EQv : Q * v = ki - kf * u) by nra. replace (Q * Q * (1 - v * v)) with (Q ^ 2 - (Q * v) ^ 2) by ring. rewrite EQv. nra.
  - intros H. assert (H2 : 0 < Q) by exact PQ.
    assert (G : (Q < Rabs (ki - kf) -> Q ^ 2 < (ki - kf) ^ 2) /\ (ki + kf < Q -> (ki + kf) ^ 2 < Q ^ 2)).
    { split; intros L; [|nra]. rewrite <- (pow2_abs (ki - kf)). nra. }
    assert (O4 : (ki ^ 2 + kf ^ 2 - Q ^ 2) / (2 * ki * kf) < -1 \/ 1 < (ki ^ 2 + kf ^ 2 - Q ^ 2) / (2 * ki * kf)). { apply frac_out; [exact Pik|]. destruct H as [H|H]; [apply (proj1 G) in H|apply (proj2 G) in H]; [right|left]; nra. }
    assert (O3 : (ki ^ 2 + Q ^ 2 - kf ^ 2) / (2 * (Q * ki)) < -1 \/ 1 < (ki ^ 2 + Q ^ 2 - kf ^ 2) / (2 * (Q * ki))).
    { apply frac_out; [exact PQi|]. destruct H as [H|H].
      - destruct (Rle_dec 0 (ki - kf)); [rewrite Rabs_right in H by lra; right; nra|rewrite Rabs_left in H by lra; left; nra].
      - right. nra. }
    rewrite (oacos_no _ O3), (oacos_no _ O4). split; reflexivity.
Qed.

(** * The wave vector transfer *)
Lemma odiv_some x y : y <> 0 -> odiv x y = Some (x / y).
Proof. intros N. unfold odiv. destruct (Req_EM_T y 0); [contradiction|reflexivity]. Qed.
Lemma bb_cell l ca cb cg sa sb sg r : facts l ca cb cg sa sb sg r -> bb l = Some
  (M (2 * PI * sa / (la l * r)) (2 * PI / (lb l * r) * ((ca * cb - cg) / sa)) (2 * PI / (lc l * r) * ((cg * ca - cb) / sa))
     0 (2 * PI / (lb l * sa)) (- (2 * PI * ca / (lc l * sa)))
     0 0 (2 * PI / lc l)).
Proof.
  intros [Eca Ecb Ecg Esa Esb Esg Psa Psb Psg Pr Qa Qb Qg Qr La Lb Lc]. unfold bb. rewrite Eca, Ecb, Ecg, Esa, Esb, Esg. assert (PP := PI_RGT_0).
  rewrite (osqrt_sq _ r) by lra. cbn [obind].
  assert (P0 : forall x, 0 < x -> x / (2 * PI) * r <> 0) by (intros x Px; apply Rgt_not_eq, Rmult_lt_0_compat; [apply Rdiv_lt_0_compat; lra|exact Pr]).
  rewrite !odiv_some by (auto; apply Rgt_not_eq; first [now apply Rmult_lt_0_compat|apply Rdiv_lt_0_compat; lra]). cbn [obind].
  assert (R1 : 0 < r / (sg * sa)) by (apply Rdiv_lt_0_compat; [exact Pr|now apply Rmult_lt_0_compat]). assert (R2 : 0 < r / (sa * sb)) by (apply Rdiv_lt_0_compat; [exact Pr|now apply Rmult_lt_0_compat]).
  rewrite (osqrt_sq _ (r / (sg * sa))), (osqrt_sq _ (r / (sa * sb))); try lra.
  - cbn [obind]. f_equal. apply m3_eq; simpl; try (field; repeat split; lra).
  - replace ((r / (sa * sb)) ^ 2) with (r ^ 2 / (sa ^ 2 * sb ^ 2)) by (field; lra). replace (1 - (ca * cb - cg) / (sa * sb) * ((ca * cb - cg) / (sa * sb))) with ((sa ^ 2 * sb ^ 2 - (ca * cb - cg) ^ 2) / (sa ^ 2 * sb ^ 2)) by (field; lra). f_equal. rewrite Qa, Qb, Qr. ring.
  - replace ((r / (sg * sa)) ^ 2) with (r ^ 2 / (sg ^ 2 * sa ^ 2)) by (field; lra). replace (1 - (cg * ca - cb) / (sg * sa) * ((cg * ca - cb) / (sg * sa))) with ((sg ^ 2 * sa ^ 2 - (cg * ca - cb) ^ 2) / (sg ^ 2 * sa ^ 2)) by (field; lra). f_equal. rewrite Qa, Qg, Qr. ring.
Qed.
(** The sign of a number that is not 0. *)
Definition sg (x : R) : R := if Rlt_dec 0 x then 1 else -1.
Lemma sg_sq x : sg x * sg x = 1.
Proof. unfold sg. destruct Rlt_dec; ring. Qed.
Lemma over_abs x : x <> 0 -> x / sqrt (x * x) = sg x.
Proof.
  intros N. replace (x * x) with (Rsqr x) by reflexivity. rewrite sqrt_Rsqr_abs. unfold sg. destruct Rlt_dec; [rewrite Rabs_right by lra|rewrite Rabs_left by lra]; field; lra.
Qed.
Lemma q_diagonal b o1 o2 hkl X Y Z : X <> 0 -> Y <> 0 -> Z <> 0 -> frame b o1 o2 = (V X 0 0, V 0 Y 0, V 0 0 Z) ->
  q_of b o1 o2 hkl = Some (V (sg X * (m11 b * vx hkl)) (sg Y * (m22 b * vy hkl)) (sg Z * (m33 b * vz hkl))).
Proof.
  intros NX NY NZ E. unfold q_of. rewrite E. cbn [vx vy vz].
  assert (D : forall x, x <> 0 -> sqrt (x * x) <> 0). { intros x Nx. apply Rgt_not_eq, sqrt_lt_R0. nra. }
  replace (X * X + 0 * 0 + 0 * 0) with (X * X) by ring. replace (0 * 0 + Y * Y + 0 * 0) with (Y * Y) by ring. replace (0 * 0 + 0 * 0 + Z * Z) with (Z * Z) by ring.
  rewrite !odiv_some by auto. cbn [obind]. rewrite !over_abs by auto. f_equal. unfold Rdiv. rewrite !Rmult_0_l. f_equal; ring.
Qed.
Lemma sg_mul x y : 0 < x -> sg (x * y) = sg y.
Proof. intros P. unfold sg. destruct (Rlt_dec 0 (x * y)), (Rlt_dec 0 y); try reflexivity; exfalso; nra. Qed.
Lemma sg_prod x y : x <> 0 -> y <> 0 -> sg (x * y) = sg x * sg y.
Proof. intros Nx Ny. unfold sg. destruct (Rlt_dec 0 (x * y)), (Rlt_dec 0 x), (Rlt_dec 0 y); try ring; exfalso; nra. Qed.
Lemma q_axes l p q s hkl : cell l -> p <> 0 -> s <> 0 -> qt l (V p 0 0) (V q s 0) hkl = Some
  (V (sg p * (astar l * vx hkl)) (sg s * (2 * PI / (lb l * sin (rad (alpha l))) * vy hkl)) (sg p * sg s * (2 * PI / lc l * vz hkl))).
Proof.
  intros C Np Ns. destruct (cell_facts l C) as (ca & cb & cg & sa & sb & sg0 & r & F). unfold qt. rewrite (bb_cell l _ _ _ _ _ _ _ F), (astar_eq l _ _ _ _ _ _ _ F). cbn [obind].
  destruct F as [Eca Ecb Ecg Esa Esb Esg Psa Psb Psg Pr Qa Qb Qg Qr La Lb Lc]. rewrite Esa. assert (PP := PI_RGT_0).
  set (b0 := 2 * PI * sa / (la l * r)). set (b1 := 2 * PI / (lb l * sa)). set (b2 := 2 * PI / lc l). set (x12 := _ * ((ca * cb - cg) / sa)). set (x13 := _ * ((cg * ca - cb) / sa)).
  assert (P0 : 0 < b0) by (unfold b0; apply Rdiv_lt_0_compat; [apply Rmult_lt_0_compat; lra|now apply Rmult_lt_0_compat]). assert (P1 : 0 < b1) by (unfold b1; apply Rdiv_lt_0_compat; [lra|now apply Rmult_lt_0_compat]).
  assert (Pp : 0 < p * p) by exact (Rsqr_pos_lt p Np). assert (P00 : 0 < b0 * b0 * (p * p) * b1) by (apply Rmult_lt_0_compat; [apply Rmult_lt_0_compat; [apply Rmult_lt_0_compat; auto|auto]|auto]). assert (P01 : 0 < b0 * b1) by (apply Rmult_lt_0_compat; auto).
  assert (Nps : p * s <> 0) by (apply Rmult_integral_contrapositive_currified; auto).
  rewrite (q_diagonal _ _ _ _ (b0 * p) (b0 * b0 * (p * p) * b1 * s) (b0 * b1 * (p * s))).
  - cbn [m11 m22 m33]. rewrite !sg_mul by auto. rewrite sg_prod by auto. reflexivity.
  - apply Rmult_integral_contrapositive_currified; lra.
  - apply Rmult_integral_contrapositive_currified; lra.
  - apply Rmult_integral_contrapositive_currified; lra.
  - unfold frame, mv, cross. cbn [vx vy vz m11 m12 m13 m21 m22 m23 m31 m32 m33]. f_equal; [f_equal|]; apply v3_eq; simpl; ring.
Qed.

(** The result of a call that names both crystals. *)
Definition outcome (c : consts) (t : tas) (l : lattice) (o1 o2 hkl : v3) (w : R) (a3 a4 Q : option R) : Prop :=
  exists a1 a2 a5 a6, get_angles_and_Q c t l o1 o2 hkl w = Ok ([a1; a2; a3; a4; a5; a6], Q).
Definition planes (t : tas) : Prop := x_tau (t_mono t) <> 0 /\ x_tau (t_ana t) <> 0.
Lemma outcome_ok c t l o1 o2 hkl w ki kf q : numbers c t w ki kf -> planes t -> qt l o1 o2 hkl = Some q ->
  outcome c t l o1 o2 hkl w (odeg (a3_of (s_dir t) ki kf (q_len q) q)) (odeg (a4_of (s_dir t) ki kf (q_len q))) (Some (q_len q)).
Proof.
  intros Nb [P1 P2] Eq. destruct (numbers_ok c t w ki kf Nb) as [Ei Ef]. unfold outcome, get_angles_and_Q, spacing. destruct (Req_EM_T (x_tau (t_mono t)) 0); [contradiction|]. destruct (Req_EM_T (x_tau (t_ana t)) 0); [contradiction|]. cbn [bind map]. rewrite Ei, Ef, Eq.
  cbn [obind option_map]. do 4 eexists. reflexivity.
Qed.

(** With orient1 along the first axis and orient2 in the plane of the first two, whatever the cell. *)
Theorem C77_axes : forall c t l p q s h k m w ki kf, cell l -> p <> 0 -> s <> 0 -> (h <> 0 \/ k <> 0 \/ m <> 0) ->
  numbers c t w ki kf -> 0 < ki -> 0 < kf -> planes t -> side (s_dir t) ->
  exists x y z a3 a4, outcome c t l (V p 0 0) (V q s 0) (V h k m) w a3 a4 (Some (sqrt (x ^ 2 + y ^ 2 + z ^ 2))) /\
    x = (p / Rabs p) * (astar l * h) /\ y = (s / Rabs s) * (2 * PI * k / (lb l * sin (rad (alpha l)))) /\ z = (p * s / Rabs (p * s)) * (2 * PI * m / lc l) /\
    sample_angles (s_dir t) ki kf x y z a3 a4.
Proof.
  intros c t l p q s h k m w ki kf C Np Ns Nh Nb Pi Pf Pl Sd. assert (Eq := q_axes l p q s (V h k m) C Np Ns). cbn [vx vy vz] in Eq.
  assert (SG : forall x, x <> 0 -> x / Rabs x = sg x). { intros x Nx. rewrite <- (over_abs x Nx). replace (x * x) with (Rsqr x) by reflexivity. rewrite sqrt_Rsqr_abs. reflexivity. }
  assert (Nps : p * s <> 0) by (apply Rmult_integral_contrapositive_currified; auto). rewrite !SG by auto. rewrite sg_prod by auto.
  destruct (C21_reciprocal_parameters l C) as (Pa & _). destruct C as (La & Lb & Lc & A & _). assert (Ss := sin_rad_pos _ A). assert (PP := PI_RGT_0).
  match type of Eq with _ = Some ?x => set (q' := x) in Eq end. exists (vx q'), (vy q'), (vz q'). do 2 eexists. split; [exact (outcome_ok c t l _ _ _ w ki kf q' Nb Pl Eq)|].
  split; [reflexivity|]. split; [simpl; f_equal; field; lra|]. split; [simpl; f_equal; field; lra|].
  apply sample_ok; auto. unfold q_len. apply sqrt_lt_R0. unfold q'. cbn [vx vy vz].
  assert (T : forall u v, sg u * sg u = 1 -> (sg u * v) ^ 2 = v ^ 2) by (intros u v Hu; transitivity (sg u * sg u * v ^ 2); [ring|rewrite Hu; ring]).
  rewrite !T by apply sg_sq. replace ((sg p * sg s * (2 * PI / lc l * m)) ^ 2) with ((sg p * sg p) * (sg s * sg s) * (2 * PI / lc l * m) ^ 2) by ring. rewrite !sg_sq, !Rmult_1_l.
  assert (K : forall u v, 0 < u -> v <> 0 -> 0 < (u * v) ^ 2). { intros u v Pu Nv. assert (u * v <> 0) by (apply Rmult_integral_contrapositive_currified; lra). nra. }
  assert (B1 : 0 < 2 * PI / (lb l * sin (rad (alpha l)))) by (apply Rdiv_lt_0_compat; [lra|now apply Rmult_lt_0_compat]). assert (B2 : 0 < 2 * PI / lc l) by (apply Rdiv_lt_0_compat; lra).
  assert (Q1 := pow2_ge_0 (astar l * h)). assert (Q2 := pow2_ge_0 (2 * PI / (lb l * sin (rad (alpha l))) * k)). assert (Q3 := pow2_ge_0 (2 * PI / lc l * m)).
  destruct Nh as [N|[N|N]]; [assert (X := K _ _ Pa N)|assert (X := K _ _ B1 N)|assert (X := K _ _ B2 N)]; lra.
Qed.
Print Assumptions C77_axes.

(** For a cell with right angles that is the length of the wave vector transfer. *)
Lemma q_right l h k m : cell l -> alpha l = 90 -> beta l = 90 -> gamma l = 90 -> (h <> 0 \/ k <> 0 \/ m <> 0) ->
  get_q l (V h k m) = sqrt ((2 * PI * h / la l) ^ 2 + (2 * PI * k / lb l) ^ 2 + (2 * PI * m / lc l) ^ 2).
Proof.
  intros C A B Gm Nh. unfold get_q. rewrite d_form. destruct (cell_facts l C) as (ca & cb & cg & sa & sb & sg0 & r & F). rewrite (Gstar_eq l _ _ _ _ _ _ _ F).
  destruct F as [Eca Ecb Ecg Esa Esb Esg Psa Psb Psg Pr Qa Qb Qg Qr La Lb Lc]. rewrite A, B, Gm, rad90 in *. rewrite cos_PI2 in *. rewrite sin_PI2 in *. subst ca cb cg sa sb sg0.
  assert (PP := PI_RGT_0). unfold form, gs, mv, dot. cbn [vx vy vz m11 m12 m13 m21 m22 m23 m31 m32 m33]. assert (r = 1) by nra. subst r.
  set (u := _ / (4 * PI ^ 2)). assert (Eu : u = (h / la l) ^ 2 + (k / lb l) ^ 2 + (m / lc l) ^ 2) by (unfold u; field; repeat split; lra).
  assert (Pu : 0 < u). { rewrite Eu. assert (K : forall x y, 0 < y -> x <> 0 -> 0 < (x / y) ^ 2). { intros x y Py Nx. assert (x / y <> 0) by (unfold Rdiv; apply Rmult_integral_contrapositive_currified; [exact Nx|apply Rinv_neq_0_compat; lra]). nra. }
    assert (Q1 := pow2_ge_0 (h / la l)). assert (Q2 := pow2_ge_0 (k / lb l)). assert (Q3 := pow2_ge_0 (m / lc l)). destruct Nh as [N|[N|N]]; [assert (X := K _ _ La N)|assert (X := K _ _ Lb N)|assert (X := K _ _ Lc N)]; lra. }
  replace ((2 * PI * h / la l) ^ 2 + (2 * PI * k / lb l) ^ 2 + (2 * PI * m / lc l) ^ 2) with ((2 * PI) ^ 2 * u) by (rewrite Eu; field; repeat split; lra).
  rewrite sqrt_scale by lra. rewrite Rabs_right by lra. assert (Su := sqrt_lt_R0 u Pu). field. lra.
Qed.
Theorem C77_right_angles : forall c t l p q s h k m w ki kf, cell l -> alpha l = 90 -> beta l = 90 -> gamma l = 90 -> p <> 0 -> s <> 0 -> (h <> 0 \/ k <> 0 \/ m <> 0) ->
  numbers c t w ki kf -> planes t ->
  exists a3 a4, outcome c t l (V p 0 0) (V q s 0) (V h k m) w a3 a4 (Some (get_q l (V h k m))).
Proof.
  intros c t l p q s h k m w ki kf C A B Gm Np Ns Nh Nb Pl. assert (Eq := q_axes l p q s (V h k m) C Np Ns). cbn [vx vy vz] in Eq. do 2 eexists.
  rewrite (q_right l h k m C A B Gm Nh). assert (O := outcome_ok c t l _ _ _ w ki kf _ Nb Pl Eq). set (a3 := odeg (a3_of _ _ _ _ _)) in O. set (a4 := odeg (a4_of _ _ _ _)) in O.
  replace (sqrt _) with (q_len (V (sg p * (astar l * h)) (sg s * (2 * PI / (lb l * sin (rad (alpha l))) * k)) (sg p * sg s * (2 * PI / lc l * m)))); [exact O|].
  unfold q_len. cbn [vx vy vz]. f_equal. rewrite A, rad90, sin_PI2.
  destruct (cell_facts l C) as (ca & cb & cg & sa & sb & sg0 & r & F). rewrite (astar_eq l _ _ _ _ _ _ _ F). destruct F as [Eca Ecb Ecg Esa Esb Esg Psa Psb Psg Pr Qa Qb Qg Qr La Lb Lc]. rewrite A, B, Gm, rad90 in *. rewrite cos_PI2 in *. rewrite sin_PI2 in *. subst ca cb cg sa sb sg0. assert (r = 1) by nra. subst r.
  assert (T : forall u v, (sg u * v) ^ 2 = v ^ 2) by (intros u v; transitivity (sg u * sg u * v ^ 2); [ring|rewrite sg_sq; ring]). rewrite !T. rewrite (Rmult_assoc (sg p)), T, T. field. repeat split; lra.
Qed.
Print Assumptions C77_right_angles.

(** For other cells it is not: the rows of the matrix lose their entries off the diagonal.  A hexagonal cell with a = 1 at (1, 1, 0). *)
Definition hexagonal : lattice := mkL 1 1 1 90 90 120.
Lemma rad120 : rad 120 = 2 * (PI / 3). Proof. unfold rad. field. Qed.
Lemma hexagonal_cell : cell hexagonal.
Proof. unfold cell, hexagonal; simpl. rewrite rad90, rad120, cos_PI2, cos_2PI3. repeat split; lra. Qed.
Theorem C77_hexagonal_refuted : exists l h k, cell l /\ alpha l = 90 /\ beta l = 90 /\ gamma l = 120 /\
  forall c t w ki kf, numbers c t w ki kf -> planes t ->
  exists a3 a4 Q, outcome c t l (V 1 0 0) (V 0 1 0) (V h k 0) w a3 a4 (Some Q) /\ Q < get_q l (V h k 0).
Proof.
  exists hexagonal, 1, 1. assert (C := hexagonal_cell). split; [exact C|]. split; [reflexivity|]. split; [reflexivity|]. split; [reflexivity|]. intros c t w ki kf Nb Pl. assert (Eq := q_axes hexagonal 1 0 1 (V 1 1 0) C ltac:(lra) ltac:(lra)). cbn [vx vy vz] in Eq.
  do 3 eexists. split; [exact (outcome_ok c t _ _ _ _ w ki kf _ Nb Pl Eq)|]. unfold q_len. cbn [vx vy vz]. unfold get_q. rewrite d_form.
  destruct (cell_facts hexagonal C) as (ca & cb & cg & sa & sb & sg0 & r & F). rewrite (astar_eq _ _ _ _ _ _ _ _ F), (Gstar_eq _ _ _ _ _ _ _ _ F).
  destruct F as [Eca Ecb Ecg Esa Esb Esg Psa Psb Psg Pr Qa Qb Qg Qr La Lb Lc]. simpl in *. rewrite rad90, rad120 in *. rewrite cos_PI2 in *. rewrite cos_2PI3 in *. rewrite sin_PI2 in *. subst ca cb cg sa sb.
  assert (PP := PI_RGT_0). unfold form, gs, mv, dot. cbn [vx vy vz m11 m12 m13 m21 m22 m23 m31 m32 m33 hexagonal la lb lc]. assert (R2 : r * r = 3 / 4) by nra. assert (E1 : sg 1 = 1) by (unfold sg; destruct (Rlt_dec 0 1); [reflexivity|lra]). rewrite E1.
  set (u := _ / (4 * _)). assert (Eu : u = 2 ^ 2). { transitivity (3 / (r * r)); [unfold u; field; lra|rewrite R2; field]. }
  rewrite Eu. replace (2 ^ 2) with (2 * 2) by ring. rewrite sqrt_square by lra. replace (2 * PI / (1 / 2)) with (4 * PI) by field.
  rewrite <- (sqrt_square (4 * PI)) by lra. match goal with |- sqrt ?x < _ => replace x with (4 * PI ^ 2 * (/ (r * r) + 1)) by (field; lra) end. rewrite R2. apply sqrt_lt_1_alt. nra.
Qed.
Print Assumptions C77_hexagonal_refuted.

(** Nor for other scattering planes, even of a cubic cell: the columns are divided by their lengths and not the rows.  With orient1 along
    (1, 1, 0) and orient2 along (0, 0, 1) the position (0, 0, 1) is taken for the origin, and there is no angle A3. *)
Theorem C77_plane_refuted : forall a, 0 < a -> let l := mkL a a a 90 90 90 in cell l /\
  forall c t w ki kf, numbers c t w ki kf -> planes t ->
  exists a4, outcome c t l (V 1 1 0) (V 0 0 1) (V 0 0 1) w None a4 (Some 0) /\ get_q l (V 0 0 1) = 2 * PI / a.
Proof.
  intros a Pa l. assert (C : cell l) by (unfold cell, l; simpl; rewrite rad90, cos_PI2; repeat split; lra). split; [exact C|]. intros c t w ki kf Nb Pl.
  assert (PP := PI_RGT_0). assert (Eq : qt l (V 1 1 0) (V 0 0 1) (V 0 0 1) = Some (V 0 0 0)).
  { destruct (cell_facts l C) as (ca & cb & cg & sa & sb & sg0 & r & F). unfold qt. rewrite (bb_cell l _ _ _ _ _ _ _ F). destruct F as [Eca Ecb Ecg Esa Esb Esg Psa Psb Psg Pr Qa Qb Qg Qr La Lb Lc].
    simpl in *. rewrite rad90 in *. rewrite cos_PI2 in *. rewrite sin_PI2 in *. subst ca cb cg sa sb sg0. assert (r = 1) by nra. subst r. assert (Pb : 0 < 2 * PI / a) by (apply Rdiv_lt_0_compat; lra).
    set (b := M _ _ _ _ _ _ _ _ _). assert (Eb : b = M (2 * PI / a) 0 0 0 (2 * PI / a) 0 0 0 (2 * PI / a)) by (unfold b; apply m3_eq; simpl; field; lra). clearbody b. subst b. set (x := 2 * PI / a) in *.
    unfold q_of, frame, mv, cross. cbn [vx vy vz m11 m12 m13 m21 m22 m23 m31 m32 m33].
    assert (D : forall y, 0 < y -> sqrt y <> 0) by (intros y Py; apply Rgt_not_eq, sqrt_lt_R0; exact Py). assert (Px : 0 < x * x) by nra. assert (Pxx : 0 < x * x * (x * x)) by nra.
    rewrite !odiv_some by (apply D; nra). cbn [obind]. f_equal. apply v3_eq; simpl; unfold Rdiv; ring. }
  assert (O := outcome_ok c t l _ _ _ w ki kf _ Nb Pl Eq). assert (EQ : q_len (V 0 0 0) = 0) by (unfold q_len; simpl; replace (0 * (0 * 1) + 0 * (0 * 1) + 0 * (0 * 1)) with 0 by ring; apply sqrt_0). rewrite EQ in O.
  assert (E3 : a3_of (s_dir t) ki kf 0 (V 0 0 0) = None). { unfold a3_of, odiv. destruct Req_EM_T as [_|N]; [reflexivity|]. exfalso. apply N. ring. } rewrite E3 in O.
  eexists. split; [exact O|]. rewrite q_right by (auto; lra). simpl la. simpl lb. simpl lc. replace ((2 * PI * 0 / a) ^ 2 + (2 * PI * 0 / a) ^ 2 + (2 * PI * 1 / a) ^ 2) with ((2 * PI / a) * (2 * PI / a)) by (field; lra).
  apply sqrt_square. apply Rlt_le, Rdiv_lt_0_compat; lra.
Qed.
Print Assumptions C77_plane_refuted.

(** * When there are wave numbers *)
Theorem C77_numbers : forall c t w, physical c -> 0 < t_efixed t -> t_infin t = None \/ t_infin t = Some (-1) \/ t_infin t = Some 1 ->
  exists k, 0 < k /\ wavevec (values_of c (t_efixed t)) = Fin k /\
  let w' := match t_infin t with Some i => if Req_EM_T i 1 then - w else w | None => w end in
  (0 <= k ^ 2 + 4826 / 10000 * w' -> exists ki kf, numbers c t w ki kf) /\
  (k ^ 2 + 4826 / 10000 * w' < 0 -> planes t -> forall l o1 o2 hkl, exists a1 a2 a5 a6 Q, get_angles_and_Q c t l o1 o2 hkl w = Ok ([a1; a2; None; None; a5; a6], Q) /\
     (a1 = None /\ a2 = None \/ a5 = None /\ a6 = None)).
Proof.
  intros c t w Ph Pe I. destruct (get_back c _ QWavevector Ph Pe) as (k & Ek & Pk & _). cbn [get] in Ek. exists k. split; [exact Pk|]. split; [exact Ek|]. cbv zeta. split.
  - intros H. set (w' := match t_infin t with Some i => _ | None => _ end) in *. assert (Ps := sqrt_pos (k ^ 2 + 4826 / 10000 * w')). assert (Sq := sqrt_sqrt _ H).
    unfold numbers. destruct I as [I|[I|I]]; unfold w' in *; clear w'; rewrite I in *; try (destruct (Req_EM_T (-1) 1); [lra|]); try (destruct (Req_EM_T 1 1); [|lra]).
    + exists (sqrt (k ^ 2 + 4826 / 10000 * w)), k. repeat split; try lra. exists k. repeat split; auto; lra.
    + exists (sqrt (k ^ 2 + 4826 / 10000 * w)), k. repeat split; try lra. exists k. repeat split; auto; try lra.
    + exists k, (sqrt (k ^ 2 + 4826 / 10000 * - w)). repeat split; try lra. exists k. repeat split; auto; try lra.
  - intros H [P1 P2] l o1 o2 hkl. unfold get_angles_and_Q, spacing. destruct (Req_EM_T (x_tau (t_mono t)) 0); [contradiction|]. destruct (Req_EM_T (x_tau (t_ana t)) 0); [contradiction|]. cbn [bind map].
    assert (N : forall x, x < 0 -> osqrt x = None) by (intros x Hx; unfold osqrt; destruct Rle_dec; [lra|reflexivity]).
    assert (G : ki_of c t w = None \/ kf_of c t w = None).
    { unfold ki_of, kf_of, fx_of, f_conv. rewrite Ek. cbn [ofl obind]. destruct I as [I|[I|I]]; rewrite I in *.
      - left. apply N. lra.
      - left. destruct (Req_EM_T (-1) 1); [lra|]. destruct (Req_EM_T (-1) (-1)); [|lra]. apply N. lra.
      - right. destruct (Req_EM_T 1 1); [|lra]. destruct (Req_EM_T 1 (-1)); [lra|]. apply N. lra. }
    destruct G as [E|E]; rewrite E.
    + do 5 eexists. split; [reflexivity|]. left. split; reflexivity.
    + destruct (ki_of c t w); do 5 eexists; (split; [reflexivity|]); right; split; reflexivity.
Qed.
Print Assumptions C77_numbers.

Example C77_case : let t := case 1 None None None None in exists k, 0 < k /\ numbers ex_c t 0 k k /\ planes t /\ side (s_dir t) /\ side (x_dir (t_mono t)) /\ side (x_dir (t_ana t)) /\ 0 < x_tau (t_mono t) /\ 0 < x_tau (t_ana t) /\
  cell rhombo /\ physical ex_c.
Proof.
  intros t. assert (Ph : physical ex_c) by (unfold physical, ex_c; simpl; repeat split; lra). assert (Pe : 0 < t_efixed t) by (simpl; lra). destruct (get_back ex_c _ QWavevector Ph Pe) as (k & Ek & Pk & _). cbn [get] in Ek. exists k. split; [exact Pk|].
  split; [|split; [unfold planes; simpl; split; lra|split; [right; reflexivity|split; [left; reflexivity|split; [right; reflexivity|split; [simpl; lra|split; [simpl; lra|split; [exact C21_ex|exact Ph]]]]]]]].
  unfold numbers. repeat split; try lra. exists k. split; [lra|]. split; [exact Ek|]. reflexivity.
Qed.
(** The reflection that closes the triangle of that case: a cube large enough. *)
Example C77_case_triangle : forall k, 0 < k -> let l := mkL (2 * PI / k) (2 * PI / k) (2 * PI / k) 90 90 90 in cell l /\ get_q l (V 1 0 0) = k /\ Rabs (k - k) <= k <= k + k.
Proof.
  intros k Pk l. assert (PP := PI_RGT_0). assert (Pa : 0 < 2 * PI / k) by (apply Rdiv_lt_0_compat; lra). assert (C : cell l) by (unfold cell, l; simpl; rewrite rad90, cos_PI2; repeat split; lra). split; [exact C|]. split.
  - rewrite q_right by (auto; left; lra). simpl la. simpl lb. simpl lc. replace ((2 * PI * 1 / (2 * PI / k)) ^ 2 + (2 * PI * 0 / (2 * PI / k)) ^ 2 + (2 * PI * 0 / (2 * PI / k)) ^ 2) with (k * k) by (field; lra). apply sqrt_square. lra.
  - replace (k - k) with 0 by ring. rewrite Rabs_R0. lra.
Qed.

(** C76: convolution of single-mode cross sections with the resolution function. *)
From Coquelicot Require Import Coquelicot.
From Coq Require Import Reals String List ZArith Lia Lra Psatz Bool.
From Verif Require Import Base LinAlg MatInv ConvModel Quad NumBounds Gauss ConvProps Quad3 SmaModel VoigtProps.
Import ListNotations.
Local Open Scope R_scope.

(** The wave vector away from the nominal point of [p]. *)
Definition shifted (a : axes) (p : meas) (d1 d2 d3 : R) : v3 := vadd (me_q p) (vadd (vscal d1 (ax_x a)) (vadd (vscal d2 (ax_y a)) (vscal d3 (ax_z a)))).
(** A mode without line width, seen through the resolution function: its intensity times exp(-(1/2) d M d), with the distance
    to the dispersion surface for the offset in energy; and the integral of this over all offsets. *)
Definition seen (a : axes) (p : meas) (md : mode) (d1 d2 d3 : R) : R :=
  let q := shifted a p d1 d2 d3 in inte md q * exp (- / 2 * qf 4 (me_M p) (off d1 d2 d3 (disp md q - me_w p))).
Definition folded_mode (a : axes) (p : meas) (md : mode) (l : R) : Prop := exists I1 I2,
  (forall d2 d1, line (seen a p md d1 d2) (I1 d2 d1)) /\ (forall d2, line (I1 d2) (I2 d2)) /\ line I2 l.
Definition cont3 (f : v3 -> R) : Prop := forall q e, 0 < e -> exists d, 0 < d /\ forall q', Rabs (vx q' - vx q) < d -> Rabs (vy q' - vy q) < d -> Rabs (vz q' - vz q) < d -> Rabs (f q' - f q) <= e.
(** The square root of the determinant of the part of the matrix left when the energy is integrated out, by Schur's formula. *)
Definition rest (m : mat) : R := sqrt (det_of m / m 3%nat 3%nat).

(** * The factors *)
Lemma rx_pos m : proper m -> 0 < rx m /\ 0 < rx m * ry m - rxy m ^ 2.
Proof.
  intros P. destruct (pivots m P) as [W [Y [X Z]]]. assert (E : rx m * ry m - rxy m ^ 2 = rxx m * ry m) by (unfold rxx; field; lra).
  assert (0 < rxx m * ry m) by (apply Rmult_lt_0_compat; auto). split; [|rewrite E; auto]. assert (0 <= rxy m ^ 2) by apply pow2_ge_0. apply (Rmult_lt_reg_r (ry m)); [auto|]. lra.
Qed.
Definition fac (m : mat) : factors :=
  mkF (sqrt (m 3%nat 3%nat / 2)) (m 0%nat 3%nat / sqrt (2 * m 3%nat 3%nat)) (m 1%nat 3%nat / sqrt (2 * m 3%nat 3%nat)) (1 / sqrt (m 2%nat 2%nat))
    (sqrt (rx m) / sqrt (rx m * ry m - rxy m ^ 2)) (1 / sqrt (rx m)) (rxy m / sqrt (rx m) / sqrt (rx m * ry m - rxy m ^ 2)) (sqrt (rx m * ry m - rxy m ^ 2)) (sqrt (m 2%nat 2%nat)).
Lemma factors_ok m : proper m -> factors_of m = Some (fac m).
Proof.
  intros P. destruct (pivots m P) as [W [Y [X Z]]]. destruct (rx_pos m P) as [Px Pd]. unfold factors_of. fold (rx m) (rxy m) (ry m). unfold positive.
  destruct (Rlt_dec 0 (m 3%nat 3%nat)); [|contradiction]. destruct (Rlt_dec 0 (rx m)); [|contradiction]. destruct (Rlt_dec 0 (rx m * ry m - rxy m ^ 2)); [|contradiction]. destruct (Rlt_dec 0 (m 2%nat 2%nat)); [|contradiction]. reflexivity.
Qed.
Lemma fac_pos m : proper m -> 0 < gamma_f (fac m) /\ 0 < fqz (fac m) /\ 0 < fqy (fac m) /\ 0 < fqxx (fac m) /\ 0 < detxy (fac m) /\ 0 < detz (fac m).
Proof.
  intros P. destruct (pivots m P) as [W [Y [X Z]]]. destruct (rx_pos m P) as [Px Pd]. unfold fac. cbn [gamma_f fqz fqy fqxx detxy detz].
  assert (S1 := sqrt_lt_R0 _ Px). assert (S2 := sqrt_lt_R0 _ Pd). assert (S3 := sqrt_lt_R0 _ Z). repeat split; auto; try (apply Rdiv_lt_0_compat; lra). apply sqrt_lt_R0. lra.
Qed.
Lemma fac_rest m : proper m -> detxy (fac m) * detz (fac m) = rest m.
Proof.
  intros P. destruct (pivots m P) as [W [Y [X Z]]]. destruct (rx_pos m P) as [Px Pd]. unfold rest, fac. cbn [detxy detz]. rewrite <- sqrt_mult by lra. f_equal. rewrite <- det_ok by exact P. unfold rxx. field. lra.
Qed.
Lemma fac_k m : proper m -> fqy (fac m) * fqxx (fac m) * fqz (fac m) = / rest m.
Proof.
  intros P. rewrite <- fac_rest by exact P. destruct (pivots m P) as [W [Y [X Z]]]. destruct (rx_pos m P) as [Px Pd]. unfold fac. cbn [fqy fqxx fqz detxy detz].
  assert (S1 := sqrt_lt_R0 _ Px). assert (S2 := sqrt_lt_R0 _ Pd). assert (S3 := sqrt_lt_R0 _ Z). field. repeat split; lra.
Qed.
Lemma rest_pos m : proper m -> 0 < rest m.
Proof. intros P. rewrite <- fac_rest by exact P. destruct (fac_pos m P) as (_ & _ & _ & _ & A & B). apply Rmult_lt_0_compat; auto. Qed.
Lemma fac_form m tx ty tz w : proper m ->
  let d1 := fqxx (fac m) * tx - fqxy (fac m) * ty in let d2 := fqy (fac m) * ty in let d3 := fqz (fac m) * tz in
  qf 4 m (off d1 d2 d3 w) = tx ^ 2 + ty ^ 2 + tz ^ 2 + 2 * (gamma_f (fac m) * w + omega_x (fac m) * d1 + omega_y (fac m) * d2) ^ 2.
Proof.
  intros P d1 d2 d3. rewrite proper_form by exact P. destruct (pivots m P) as [W [Y [X Z]]]. destruct (rx_pos m P) as [Px Pd].
  assert (E : rx m * d1 ^ 2 + 2 * rxy m * d1 * d2 + ry m * d2 ^ 2 = tx ^ 2 + ty ^ 2).
  { unfold d1, d2, fac. cbn [fqxx fqxy fqy]. assert (S1 := sqrt_lt_R0 _ Px). assert (S2 := sqrt_lt_R0 _ Pd). assert (Q1 := sqrt_sqrt _ (Rlt_le _ _ Px)). assert (Q2 := sqrt_sqrt _ (Rlt_le _ _ Pd)).
    set (s := sqrt (rx m)) in *. set (t := sqrt (rx m * ry m - rxy m ^ 2)) in *. set (b := rxy m) in *. assert (Ey : ry m = (t * t + b ^ 2) / (s * s)) by (rewrite Q2, Q1; field; lra). rewrite Ey, <- Q1. field. split; lra. }
  assert (Ez : m 2%nat 2%nat * d3 ^ 2 = tz ^ 2).
  { unfold d3, fac. cbn [fqz]. assert (S3 := sqrt_lt_R0 _ Z). assert (Q3 := sqrt_sqrt _ (Rlt_le _ _ Z)). set (s := sqrt (m 2%nat 2%nat)) in *. rewrite <- Q3. field. lra. }
  assert (Ew : 2 * (gamma_f (fac m) * w + omega_x (fac m) * d1 + omega_y (fac m) * d2) ^ 2 = m 3%nat 3%nat * (w + (m 0%nat 3%nat * d1 + m 1%nat 3%nat * d2) / m 3%nat 3%nat) ^ 2).
  { unfold fac. cbn [gamma_f omega_x omega_y]. clearbody d1 d2. set (M := m 3%nat 3%nat) in *. assert (A := sqrt_lt_R0 (M / 2) ltac:(lra)). assert (B := sqrt_sqrt (M / 2) ltac:(lra)). set (s := sqrt (M / 2)) in *.
    assert (C : sqrt (2 * M) = 2 * s). { apply sqrt_lem_1; [lra|lra|]. replace (2 * s * (2 * s)) with (4 * (s * s)) by ring. rewrite B. field. } rewrite C. clearbody s. assert (D : M = 2 * (s * s)) by lra. rewrite D. field. lra. }
  rewrite <- E, <- Ez, Ew. clearbody d1 d2 d3. unfold rx, rxy, ry. field. lra.
Qed.

(** * Sums that may be nan *)
Definition oplus (x y : option R) : option R := match x, y with Some a, Some b => Some (a + b) | _, _ => None end.
Lemma oplus_assoc x y z : oplus (oplus x y) z = oplus x (oplus y z).
Proof. destruct x, y, z; simpl; try reflexivity. f_equal. ring. Qed.
Lemma osum_some {A} (f : A -> option R) (h : A -> R) l : (forall x, In x l -> f x = Some (h x)) -> osum (map f l) = Some (Rsum (map h l)).
Proof. induction l as [|x l IH]; intros H; [reflexivity|]. cbn [map]. change (osum (f x :: map f l)) with (oplus (f x) (osum (map f l))). rewrite IH by (intros; apply H; right; auto). rewrite H by (left; reflexivity). reflexivity. Qed.

(** The line shape as a number. *)
Definition shape (x a : R) : R := match voigt x a with Some y => y | None => 0 end.
Lemma shape_ok x a : 0 <= a -> voigt x a = Some (shape x a).
Proof. intros A. destruct (C76_line_finite x a A) as [y E]. unfold shape. rewrite E. reflexivity. Qed.

Definition added_r (a : axes) (m : mat) (md : mode) (p : meas) (tx ty tz : R) : R :=
  let F := fac m in let d1 := fqxx F * tx - fqxy F * ty in let d2 := fqy F * ty in let d3 := fqz F * tz in let q := shifted a p d1 d2 d3 in
  inte md q * shape (gamma_f F * (disp md q - me_w p) + omega_x F * d1 + omega_y F * d2) (wl md q * gamma_f F).
Lemma shifted_displaced a p d1 d2 d3 : shifted a p d1 d2 d3 = displaced a (me_q p) d1 d2 d3.
Proof. apply v3_eq; simpl; ring. Qed.
Lemma added_ok a m md p tx ty tz : proper m -> (forall q, 0 <= wl md q) -> added a (fac m) md p tx ty tz = Some (added_r a m md p tx ty tz).
Proof.
  intros P Wl. unfold added, added_r. cbv zeta. rewrite shifted_displaced. destruct (fac_pos m P) as [G _]. rewrite shape_ok by (apply Rmult_le_pos; [apply Wl|lra]). reflexivity.
Qed.

Definition trip (H : R -> R -> R -> R) (m0 m1 : nat) : R :=
  Rsum (map (fun cz => Rsum (map (fun cy => Rsum (map (fun cx => H (tan cx) (tan cy) (tan cz) * (weight (tan cx) * weight (tan cy)) * weight (tan cz)) (grid m0))) (grid m0))) (grid m1)).
Lemma trip_scal H k m0 m1 : trip (fun x y z => k * H x y z) m0 m1 = k * trip H m0 m1.
Proof. unfold trip. do 3 (rewrite <- Rsum_scal; apply Rsum_ext; intros ? _). ring. Qed.
Lemma trip_plus H H' m0 m1 : trip (fun x y z => H x y z + H' x y z) m0 m1 = trip H m0 m1 + trip H' m0 m1.
Proof. unfold trip. do 3 (rewrite <- Rsum_plus; apply Rsum_ext; intros ? _). ring. Qed.
Lemma trip_le H H' m0 m1 : (forall x y z, H x y z <= H' x y z) -> trip H m0 m1 <= trip H' m0 m1.
Proof. intros L. unfold trip. do 3 (apply Rsum_le; intros ? _). apply Rmult_le_compat_r; [apply weight_pos|]. apply Rmult_le_compat_r; [apply Rmult_le_pos; apply weight_pos|]. apply L. Qed.
Lemma trip_1 m0 m1 : trip (fun _ _ _ => 1) m0 m1 = ssum m0 ^ 2 * ssum m1.
Proof.
  unfold trip. rewrite (Rsum_ext _ (fun cz => ssum m0 ^ 2 * weight (tan cz))); [rewrite Rsum_scal; reflexivity|]. intros cz _.
  rewrite (Rsum_ext _ (fun cy => ssum m0 * weight (tan cz) * weight (tan cy))); [rewrite Rsum_scal; fold (ssum m0); ring|]. intros cy _.
  rewrite (Rsum_ext _ (fun cx => weight (tan cy) * weight (tan cz) * weight (tan cx))) by (intros; ring). rewrite Rsum_scal. fold (ssum m0). ring.
Qed.
Lemma trip_near H H' c m0 m1 : (forall x y z, Rabs (H x y z - H' x y z) <= c) -> Rabs (trip H m0 m1 - trip H' m0 m1) <= c * (ssum m0 ^ 2 * ssum m1).
Proof.
  intros L. rewrite <- trip_1. assert (E : trip H m0 m1 - trip H' m0 m1 = trip (fun x y z => H x y z + -1 * H' x y z) m0 m1) by (rewrite trip_plus, trip_scal; ring). rewrite E.
  assert (A : trip (fun x y z => H x y z + -1 * H' x y z) m0 m1 <= c * trip (fun _ _ _ => 1) m0 m1). { rewrite <- trip_scal. apply trip_le. intros x y z. assert (K := Rle_abs (H x y z - H' x y z)). specialize (L x y z). lra. }
  assert (B : - c * trip (fun _ _ _ => 1) m0 m1 <= trip (fun x y z => H x y z + -1 * H' x y z) m0 m1). { rewrite <- trip_scal. apply trip_le. intros x y z. assert (K := Rle_abs (- (H x y z - H' x y z))). rewrite Rabs_Ropp in K. specialize (L x y z). lra. }
  apply Rabs_le. lra.
Qed.
Lemma trip_lin A B C D m0 m1 : trip (fun x y z => A + B * x + C * y + D * z) m0 m1 = A * ssum m0 ^ 2 * ssum m1.
Proof.
  unfold trip. rewrite (Rsum_ext _ (fun cz => (A + D * tan cz) * (ssum m0 ^ 2 * weight (tan cz)))); [rewrite lin_sum; ring|]. intros cz _.
  rewrite (Rsum_ext _ (fun cy => ((A + D * tan cz) + C * tan cy) * (ssum m0 * weight (tan cz) * weight (tan cy)))); [rewrite lin_sum; ring|]. intros cy _.
  rewrite (Rsum_ext _ (fun cx => ((A + D * tan cz + C * tan cy) + B * tan cx) * (weight (tan cy) * weight (tan cz) * weight (tan cx)))) by (intros; ring). rewrite lin_sum. ring.
Qed.
Lemma trip_mid H m0 m1 : trip H m0 m1 * step m0 ^ 2 * step m1 =
  mid lo hi (2 * m0 + 1) (fun y => mid lo hi (2 * m0 + 1) (fun x => mid lo hi (2 * m1 + 1) (fun z => ang3 (fun y x z => H x y z) y x z))).
Proof.
  unfold trip. rewrite !grid_mids, !step_h. set (n := (2 * m0 + 1)%nat). set (n1 := (2 * m1 + 1)%nat). unfold mid.
  rewrite (Rsum_swap (fun cz cy => Rsum (map (fun cx => H (tan cx) (tan cy) (tan cz) * (weight (tan cx) * weight (tan cy)) * weight (tan cz)) (mids lo hi n)))).
  match goal with |- ?S * ?A * ?B = _ => transitivity (h lo hi n * ((h lo hi n * h lo hi n1) * S)); [ring|] end. f_equal. rewrite <- Rsum_scal. apply Rsum_ext. intros y Iy.
  rewrite (Rsum_swap (fun cz cx => H (tan cx) (tan y) (tan cz) * (weight (tan cx) * weight (tan y)) * weight (tan cz))).
  rewrite Rmult_assoc. f_equal. rewrite <- Rsum_scal. apply Rsum_ext. intros x Ix. f_equal.
  apply Rsum_ext. intros z Iz. unfold ang3. rewrite !weight_wt by (eapply mids_in; eassumption). ring.
Qed.

Lemma sum_ok a m md p m0 m1 : proper m -> (forall q, 0 <= wl md q) -> sma_sum a (fac m) md p m0 m1 = Some (trip (added_r a m md p) m0 m1 / rest m).
Proof.
  intros P Wl. unfold sma_sum. destruct (fac_pos m P) as (_ & _ & _ & _ & Px & Pz).
  transitivity (Some (trip (fun x y z => / rest m * added_r a m md p x y z) m0 m1)); [|rewrite trip_scal; f_equal; unfold Rdiv; ring].
  unfold trip. apply osum_some. intros cz _. apply osum_some. intros cy _. apply osum_some. intros cx _. rewrite added_ok by auto. cbn [option_map]. f_equal. rewrite <- fac_rest by exact P. field. lra.
Qed.
Lemma point_ok a modes sqw pf bg m0 m1 i p : proper (me_M p) -> (forall j q, (j < modes)%nat -> 0 <= wl (sqw j) q) ->
  sma_point a modes sqw pf bg m0 m1 i p = Some (Rsum (map (fun j => trip (added_r a (me_M p) (sqw j) p) m0 m1 / rest (me_M p) * pf j i) (seq 0 modes)) * step m0 ^ 2 * step m1 * one_point m1 * one_point m0 ^ 2 * me_R0 p + bg i).
Proof.
  intros P Wl. unfold sma_point. rewrite factors_ok by exact P.
  rewrite (osum_some _ (fun j => trip (added_r a (me_M p) (sqw j) p) m0 m1 / rest (me_M p) * pf j i)); [reflexivity|]. intros j I. apply in_seq in I. rewrite sum_ok by (auto; intros; apply Wl; lia). reflexivity.
Qed.

(** * Continuity *)
Definition T3 : UniformSpace := prod_UniformSpace R_UniformSpace (prod_UniformSpace R_UniformSpace R_UniformSpace).
Lemma near3_cont f x y z : continuous (fun t : T3 => f (fst t) (fst (snd t)) (snd (snd t))) ((x, (y, z)) : T3) -> near3 f x y z.
Proof.
  intros C e Pe. assert (H := proj1 (filterlim_locally _ _) C (mkposreal e Pe)). destruct H as [d D]. exists d. split; [apply cond_pos|]. intros x' y' z' A1 A2 A3.
  specialize (D ((x', (y', z')) : T3) ltac:(repeat split; assumption)). unfold ball in D. simpl in D. unfold AbsRing_ball, abs, minus, plus, opp in D. simpl in D. left. exact D.
Qed.
Lemma cont3_comp f (u v w : T3 -> R) t : cont3 f -> continuous u t -> continuous v t -> continuous w t -> continuous (fun t => f (V (u t) (v t) (w t))) t.
Proof.
  intros F Cu Cv Cw. apply filterlim_locally. intros [e Pe]. destruct (F (V (u t) (v t) (w t)) (e / 2) ltac:(lra)) as [d [Pd D]].
  assert (Hu := proj1 (filterlim_locally _ _) Cu (mkposreal d Pd)). assert (Hv := proj1 (filterlim_locally _ _) Cv (mkposreal d Pd)). assert (Hw := proj1 (filterlim_locally _ _) Cw (mkposreal d Pd)).
  generalize (filter_and _ _ Hu (filter_and _ _ Hv Hw)). apply filter_imp. intros t' (A1 & A2 & A3). apply Rle_lt_trans with (e / 2); [|simpl; lra]. apply D; assumption.
Qed.
Lemma exact_near (f1 f2 : v3 -> R) (a : axes) (p : meas) (F : factors) : cont3 f1 -> cont3 f2 -> forall y x z,
  near3 (fun y x z => let q := shifted a p (fqxx F * x - fqxy F * y) (fqy F * y) (fqz F * z) in
    f1 q * exp (- (gamma_f F * (f2 q - me_w p) + omega_x F * (fqxx F * x - fqxy F * y) + omega_y F * (fqy F * y)) ^ 2)) y x z.
Proof.
  intros C1 C2 y x z. apply near3_cont. cbv zeta. set (t0 := ((y, (x, z)) : T3)).
  assert (Cy : continuous (fun t : T3 => fst t) t0) by apply continuous_fst.
  assert (Cx : continuous (fun t : T3 => fst (snd t)) t0) by (apply (continuous_comp (fun t : T3 => snd t) (fun s => fst s)); [apply continuous_snd|apply continuous_fst]).
  assert (Cz : continuous (fun t : T3 => snd (snd t)) t0) by (apply (continuous_comp (fun t : T3 => snd t) (fun s => snd s)); [apply continuous_snd|apply continuous_snd]).
  assert (K : forall (k : R) (u : T3 -> R), continuous u t0 -> continuous (fun t => k * u t) t0).
  { intros k u C. apply (continuous_scal_r (K := R_AbsRing) (V := R_NormedModule) k u t0). exact C. }
  assert (Pl : forall u v : T3 -> R, continuous u t0 -> continuous v t0 -> continuous (fun t => u t + v t) t0) by (intros u v A B; apply (continuous_plus (K := R_AbsRing) (V := R_NormedModule) u v); assumption).
  assert (Mi : forall u v : T3 -> R, continuous u t0 -> continuous v t0 -> continuous (fun t => u t - v t) t0) by (intros u v A B; apply (continuous_minus (K := R_AbsRing) (V := R_NormedModule) u v); assumption).
  assert (Mu : forall u v : T3 -> R, continuous u t0 -> continuous v t0 -> continuous (fun t => u t * v t) t0) by (intros u v A B; apply (continuous_mult (K := R_AbsRing) u v); assumption).
  assert (Co : forall k : R, continuous (fun _ : T3 => k) t0) by (intros; apply continuous_const).
  assert (C1' : continuous (fun t : T3 => fqxx F * fst (snd t) - fqxy F * fst t) t0) by (apply Mi; apply K; assumption).
  assert (C2' : continuous (fun t : T3 => fqy F * fst t) t0) by (apply K; assumption). assert (C3' : continuous (fun t : T3 => fqz F * snd (snd t)) t0) by (apply K; assumption).
  assert (Q : forall f, cont3 f -> continuous (fun t : T3 => f (shifted a p (fqxx F * fst (snd t) - fqxy F * fst t) (fqy F * fst t) (fqz F * snd (snd t)))) t0).
  { intros f Cf. assert (Qp : forall c0 c1 c2 c3 : R, continuous (fun t : T3 => c0 + ((fqxx F * fst (snd t) - fqxy F * fst t) * c1 + (fqy F * fst t * c2 + fqz F * snd (snd t) * c3))) t0).
    { intros. apply Pl; [apply Co|]. apply Pl; [apply Mu; [exact C1'|apply Co]|]. apply Pl; apply Mu; try apply Co; assumption. }
    exact (cont3_comp f _ _ _ t0 Cf (Qp (vx (me_q p)) (vx (ax_x a)) (vx (ax_y a)) (vx (ax_z a))) (Qp (vy (me_q p)) (vy (ax_x a)) (vy (ax_y a)) (vy (ax_z a))) (Qp (vz (me_q p)) (vz (ax_x a)) (vz (ax_y a)) (vz (ax_z a)))). }
  apply Mu; [apply Q; exact C1|]. apply (continuous_comp (fun t : T3 => _) exp); [|apply continuous_exp].
  apply (continuous_opp (K := R_AbsRing) (V := R_NormedModule) (fun t : T3 => _)).
  assert (W : continuous (fun t : T3 => gamma_f F * (f2 (shifted a p (fqxx F * fst (snd t) - fqxy F * fst t) (fqy F * fst t) (fqz F * snd (snd t))) - me_w p) + omega_x F * (fqxx F * fst (snd t) - fqxy F * fst t) + omega_y F * (fqy F * fst t)) t0).
  { apply Pl; [apply Pl|]; apply K; try assumption. apply Mi; [apply Q; exact C2|apply Co]. }
  simpl pow. apply Mu; [exact W|]. apply Mu; [exact W|apply Co].
Qed.

(** * One mode without width *)
(** Eventually within [c] of [l]. *)
Definition comes (f : nat -> nat -> R) (l c : R) : Prop := forall e, 0 < e -> exists N, forall m0 m1, (N < m0)%nat -> (N < m1)%nat -> Rabs (f m0 m1 - l) <= c + e.
Lemma comes_plus f g a b c d : comes f a c -> comes g b d -> comes (fun m n => f m n + g m n) (a + b) (c + d).
Proof.
  intros F G e Pe. destruct (F (e / 2) ltac:(lra)) as [N HN]. destruct (G (e / 2) ltac:(lra)) as [N' HN']. exists (N + N')%nat. intros m0 m1 L0 L1.
  specialize (HN m0 m1 ltac:(lia) ltac:(lia)). specialize (HN' m0 m1 ltac:(lia) ltac:(lia)).
  replace (f m0 m1 + g m0 m1 - (a + b)) with ((f m0 m1 - a) + (g m0 m1 - b)) by ring. eapply Rle_trans; [apply Rabs_triang|]. lra.
Qed.
Lemma comes_scal f a c k : comes f a c -> comes (fun m n => f m n * k) (a * k) (c * Rabs k).
Proof.
  intros F e Pe. assert (A := Rabs_pos k). destruct (F (e / (Rabs k + 1))) as [N HN]. { apply Rdiv_lt_0_compat; lra. } exists N. intros m0 m1 L0 L1. specialize (HN m0 m1 L0 L1).
  replace (f m0 m1 * k - a * k) with ((f m0 m1 - a) * k) by ring. rewrite Rabs_mult. apply Rle_trans with ((c + e / (Rabs k + 1)) * Rabs k).
  - apply Rmult_le_compat_r; auto.
  - assert (E : e / (Rabs k + 1) * (Rabs k + 1) = e) by (field; lra). assert (0 < e / (Rabs k + 1)) by (apply Rdiv_lt_0_compat; lra). lra.
Qed.
Lemma comes_ext f g l c : (forall m n, (0 < m)%nat -> (0 < n)%nat -> f m n = g m n) -> comes f l c -> comes g l c.
Proof. intros E F e Pe. destruct (F e Pe) as [N HN]. exists N. intros m0 m1 L0 L1. rewrite <- E by lia. auto. Qed.
Lemma comes_const c : comes (fun _ _ => c) c 0.
Proof. intros e Pe. exists 0%nat. intros. rewrite Rminus_diag_eq, Rabs_R0 by reflexivity. lra. Qed.

Definition norm3 (m0 m1 : nat) : R := norm1 m0 ^ 2 * norm1 m1.
Lemma norm3_lim : tends norm3 (sqrt (2 * PI) ^ 3).
Proof.
  set (s := sqrt (2 * PI)). assert (Ps : 0 < s) by (apply sqrt_lt_R0; assert (P := PI_RGT_0); lra). intros e Pe.
  set (d := Rmin 1 (e / (3 * (s + 1) ^ 2))). assert (Pq : 0 < 3 * (s + 1) ^ 2) by nra. assert (Pd : 0 < d) by (apply Rmin_pos; [lra|apply Rdiv_lt_0_compat; lra]).
  destruct (norm1_lim d Pd) as [N HN]. exists N. intros m0 m1 L0 L1. assert (H0 := HN m0 L0). assert (H1 := HN m1 L1). unfold norm3. fold s in H0, H1. set (x := norm1 m0) in *. set (y := norm1 m1) in *.
  assert (D1 : d <= 1) by apply Rmin_l. assert (D2 : d <= e / (3 * (s + 1) ^ 2)) by apply Rmin_r. apply Rabs_le_between in H0, H1.
  replace (x ^ 2 * y - s ^ 3) with ((x - s) * ((x + s) * y) + s ^ 2 * (y - s)) by ring.
  eapply Rle_trans; [apply Rabs_triang|]. rewrite !Rabs_mult. assert (A1 : Rabs (x - s) <= d) by (apply Rabs_le; lra). assert (A2 : Rabs (y - s) <= d) by (apply Rabs_le; lra).
  assert (B1 : Rabs (x + s) <= 2 * (s + 1)) by (apply Rabs_le; lra). assert (B2 : Rabs y <= s + 1) by (apply Rabs_le; lra). rewrite (Rabs_right (s ^ 2)) by nra.
  apply Rle_trans with (d * (2 * (s + 1) * (s + 1)) + s ^ 2 * d).
  - apply Rplus_le_compat; [apply Rmult_le_compat; try apply Rabs_pos; auto; [apply Rmult_le_pos; apply Rabs_pos|apply Rmult_le_compat; try apply Rabs_pos; auto]|apply Rmult_le_compat_l; [nra|auto]].
  - apply Rle_trans with (d * (3 * (s + 1) ^ 2)); [nra|]. apply (Rmult_le_reg_r (/ (3 * (s + 1) ^ 2))); [apply Rinv_0_lt_compat; lra|]. rewrite Rmult_assoc, Rinv_r by lra. unfold Rdiv in D2. lra.
Qed.

Definition plain (md : mode) (b : R) : Prop := cont3 (disp md) /\ cont3 (inte md) /\ (forall q, Rabs (inte md q) <= b) /\ forall q, wl md q = 0.
Lemma sma_mode a p md b : proper (me_M p) -> plain md b ->
  exists l, folded_mode a p md l /\ comes (fun m0 m1 => trip (added_r a (me_M p) md p) m0 m1 / rest (me_M p) * step m0 ^ 2 * step m1) l (5 / 10 ^ 5 * b * sqrt (2 * PI) ^ 3 / rest (me_M p)).
Proof.
  intros P (Cd & Ci & Bi & Wl). set (m := me_M p) in *. assert (FF := fun tx ty tz w => fac_form m tx ty tz w P). cbv zeta in FF. destruct (fac_pos m P) as (Pg & Pz & Py & Px & Pxy & Pdz). assert (Pr := rest_pos m P). assert (K := fac_k m P).
  set (F := fac m) in *.
  set (G := fun y x z : R => let q := shifted a p (fqxx F * x - fqxy F * y) (fqy F * y) (fqz F * z) in
    inte md q * exp (- (gamma_f F * (disp md q - me_w p) + omega_x F * (fqxx F * x - fqxy F * y) + omega_y F * (fqy F * y)) ^ 2)).
  assert (Gc : forall y x z, near3 G y x z) by (apply (exact_near (inte md) (disp md) a p F); assumption).
  assert (Pb : 0 <= b) by (eapply Rle_trans; [apply Rabs_pos|apply (Bi (V 0 0 0))]).
  assert (Gb : forall y x z, Rabs (G y x z) <= b).
  { intros y x z. unfold G. cbv zeta. rewrite Rabs_mult. set (o := _ ^ 2). assert (0 <= o) by apply pow2_ge_0. assert (E1 : 0 < exp (- o) <= 1). { split; [apply exp_pos|]. rewrite <- exp_0. destruct H as [H|H]; [left; apply exp_increasing; lra|right; f_equal; lra]. }
    rewrite (Rabs_right (exp _)) by lra. specialize (Bi (shifted a p (fqxx F * x - fqxy F * y) (fqy F * y) (fqz F * z))). assert (A0 := Rabs_pos (inte md (shifted a p (fqxx F * x - fqxy F * y) (fqy F * y) (fqz F * z)))). nra. }
  destruct (iterated3 G b Gc Gb (fqy F) (fqxx F) (fqz F) (fun t => - fqxy F * t) Py Px Pz) as (I1 & I2 & H1 & H2 & H3). set (A0 := RInt _ _ _) in H3.
  exists (A0 * (fqy F * fqxx F * fqz F)). split.
  - exists I1, I2. split; [|split; assumption]. intros d2 d1. specialize (H1 d2 d1). eapply (is_RInt_gen_ext (V := R_NormedModule)); [|exact H1]. apply filter_forall. intros [u v] d3 _.
    set (ty := d2 / fqy F). set (tx := (d1 - - fqxy F * ty) / fqxx F). set (tz := d3 / fqz F). unfold G, seen. cbv zeta. fold m.
    assert (E1 : fqxx F * tx - fqxy F * ty = d1) by (unfold tx; field; lra). assert (E2 : fqy F * ty = d2) by (unfold ty; field; lra). assert (E3 : fqz F * tz = d3) by (unfold tz; field; lra).
    assert (FF' := FF tx ty tz (disp md (shifted a p d1 d2 d3) - me_w p)). rewrite E1, E2, E3 in *. rewrite FF'. rewrite Rmult_assoc, <- exp_plus. f_equal. f_equal. field.
  - rewrite K. intros e Pe.
    destruct (conv3 lo hi box (ang3 G) (ang3_uc G b Gc Gb) (e / 2 * rest m)) as [N HN]. { apply Rmult_lt_0_compat; lra. }
    set (c := 5 / 10 ^ 5 * b). assert (Pc : 0 <= c) by (unfold c; lra). destruct (norm3_lim (e / 2 * rest m / (c + 1))) as [N' HN']. { apply Rdiv_lt_0_compat; [apply Rmult_lt_0_compat; lra|lra]. }
    exists (N + N')%nat. intros m0 m1 L0 L1. specialize (HN (2 * m0 + 1)%nat (2 * m1 + 1)%nat ltac:(lia) ltac:(lia)). specialize (HN' m0 m1 ltac:(lia) ltac:(lia)).
    assert (TM := trip_mid (fun x y z => G y x z) m0 m1). change (ang3 (fun y x z => (fun x y z => G y x z) x y z)) with (ang3 G) in TM. set (q := mid _ _ _ _) in HN. change (Rabs (q - A0) <= e / 2 * rest m) in HN. change (trip (fun x y z => G y x z) m0 m1 * step m0 ^ 2 * step m1 = q) in TM.
    assert (Nr : forall x y z, Rabs (added_r a m md p x y z - G y x z) <= c).
    { intros x y z. unfold added_r, G. cbv zeta. fold F. rewrite Wl, Rmult_0_l. set (dd := shifted _ _ _ _ _). set (o := _ + _ + _). destruct (C76_line_sharp o) as [v [E [B _]]]. unfold shape. rewrite E. rewrite <- Rmult_minus_distr_l, Rabs_mult. unfold c. rewrite Rmult_comm. apply Rmult_le_compat; try apply Rabs_pos; [exact B|apply Bi]. }
    assert (TN := trip_near _ _ c m0 m1 Nr). assert (S0 := step_pos m0). assert (S1 := step_pos m1).
    set (t := trip (added_r a m md p) m0 m1) in *. set (t' := trip (fun x y z => G y x z) m0 m1) in *.
    assert (En : ssum m0 ^ 2 * ssum m1 * (step m0 ^ 2 * step m1) = norm3 m0 m1). { unfold norm3, norm1. destruct m0; [lia|]. destruct m1; [lia|]. unfold one_point. ring. }
    assert (B1 : Rabs ((t - t') * (step m0 ^ 2 * step m1)) <= c * norm3 m0 m1). { rewrite Rabs_mult, (Rabs_right (step m0 ^ 2 * step m1)) by nra. rewrite <- En. replace (c * (ssum m0 ^ 2 * ssum m1 * (step m0 ^ 2 * step m1))) with (c * (ssum m0 ^ 2 * ssum m1) * (step m0 ^ 2 * step m1)) by ring. apply Rmult_le_compat_r; [nra|exact TN]. }
    assert (B2 : c * norm3 m0 m1 <= c * sqrt (2 * PI) ^ 3 + e / 2 * rest m).
    { apply Rabs_le_between in HN'. set (z := e / 2 * rest m / (c + 1)) in *. assert (Ez : z * (c + 1) = e / 2 * rest m) by (unfold z; field; lra). assert (0 <= z). { unfold z. apply Rmult_le_pos; [apply Rmult_le_pos; lra|left; apply Rinv_0_lt_compat; lra]. } rewrite <- Ez. nra. }
    replace (t / rest m * step m0 ^ 2 * step m1 - A0 * / rest m) with (((t - t') * (step m0 ^ 2 * step m1) + (q - A0)) * / rest m) by (rewrite <- TM; field; lra).
    rewrite Rabs_mult, (Rabs_right (/ rest m)) by (apply Rle_ge, Rlt_le, Rinv_0_lt_compat; exact Pr). fold c.
    apply (Rmult_le_reg_r (rest m)); [exact Pr|]. rewrite Rmult_assoc, Rinv_l, Rmult_1_r by lra. replace ((c * sqrt (2 * PI) ^ 3 / rest m + e) * rest m) with (c * sqrt (2 * PI) ^ 3 + e * rest m) by (field; lra).
    eapply Rle_trans; [apply Rabs_triang|]. lra.
Qed.
Lemma folded_mode_unique a p md l l' : folded_mode a p md l -> folded_mode a p md l' -> l' = l.
Proof.
  intros (I1 & I2 & A1 & A2 & A3) (J1 & J2 & B1 & B2 & B3).
  assert (E1 : forall d1 d2, I1 d1 d2 = J1 d1 d2) by (intros; symmetry; eapply line_unique; [|apply A1|apply B1]; reflexivity).
  assert (E2 : forall d1, I2 d1 = J2 d1) by (intros; symmetry; eapply line_unique; [|apply A2|apply B2]; apply E1).
  eapply line_unique; [|exact A3|exact B3]. exact E2.
Qed.
Lemma sma_modes a p sqw b (pf : nat -> nat -> R) (i : nat) : proper (me_M p) -> forall modes, (forall j, (j < modes)%nat -> plain (sqw j) (b j)) ->
  exists l, (forall j, (j < modes)%nat -> folded_mode a p (sqw j) (l j)) /\
    comes (fun m0 m1 => Rsum (map (fun j => trip (added_r a (me_M p) (sqw j) p) m0 m1 / rest (me_M p) * pf j i) (seq 0 modes)) * step m0 ^ 2 * step m1)
      (Rsum (map (fun j => l j * pf j i) (seq 0 modes))) (5 / 10 ^ 5 * sqrt (2 * PI) ^ 3 / rest (me_M p) * Rsum (map (fun j => b j * Rabs (pf j i)) (seq 0 modes))).
Proof.
  intros P. induction modes as [|n IH]; intros Sm.
  - exists (fun _ => 0). split; [intros; lia|]. simpl seq. simpl map. simpl Rsum. rewrite Rmult_0_r. apply (comes_ext (fun _ _ => 0)); [intros; ring|apply comes_const].
  - destruct IH as [l [F H]]; [intros; apply Sm; lia|]. destruct (sma_mode a p (sqw n) (b n) P (Sm n ltac:(lia))) as [v [Fv Hv]].
    exists (fun j => if Nat.eqb j n then v else l j). split.
    + intros j Lj. destruct (Nat.eqb_spec j n); [subst; exact Fv|apply F; lia].
    + rewrite seq_S, !map_app, !Rsum_app. rewrite (Rsum_ext (fun j => (if Nat.eqb j n then v else l j) * pf j i) (fun j => l j * pf j i)).
      2:{ intros j I. apply in_seq in I. destruct (Nat.eqb_spec j n); [lia|reflexivity]. }
      simpl (map _ [_]). rewrite Nat.eqb_refl. simpl (Rsum [_]). rewrite !Rplus_0_r.
      apply (comes_scal _ v _ (pf n i)) in Hv. assert (S := comes_plus _ _ _ _ _ _ H Hv).
      match type of S with comes _ _ ?x => match goal with |- comes _ _ ?y => replace y with x by (unfold Rdiv; ring) end end.
      eapply comes_ext; [|exact S]. intros m0 m1 _ _. cbv beta. rewrite map_app, Rsum_app. simpl (map _ [_]). simpl (Rsum [_]). unfold Rdiv. ring.
Qed.

(** The prefactor cannot be left out. *)
Definition given (pref : option ((nat -> nat -> R) * (nat -> R))) (nargout : Z) (pf : nat -> nat -> R) (bg : nat -> R) : Prop := pref <> None /\ asked pref nargout pf bg.
Lemma given_ok pref nargout pf bg : given pref nargout pf bg -> sma_prefactors pref nargout = Ok (pf, bg).
Proof. intros [N A]. rewrite <- (asked_ok _ _ _ _ A). destruct pref; [reflexivity|contradiction]. Qed.
Lemma sma_fix {St} (g : rng St) a modes sqw pref nargout ps pf bg acc m0 m1 seed s : List.length ps <> 1%nat -> given pref nargout pf bg -> fix_accuracy acc = Ok (m0, m1) ->
  convolution_SMA g a modes sqw pref nargout ps "fix" acc seed s = (Ok (mapi (sma_point a modes sqw pf bg m0 m1) 0 ps), s).
Proof.
  intros L A Ac. unfold convolution_SMA. rewrite (given_ok _ _ _ _ A), Ac. destruct ps as [|p [|p' ps]]; try reflexivity. exfalso. apply L. reflexivity.
Qed.

(** ** Modes without width: the fixed grid tends to the convolution but for the error of the line shape *)
Theorem C76_converges : forall St (g : rng St) a modes sqw b pref nargout pf bg ps seed s i p,
  List.length ps <> 1%nat -> given pref nargout pf bg -> nth_error ps i = Some p -> proper (me_M p) -> (forall j, (j < modes)%nat -> plain (sqw j) (b j)) ->
  exists l, (forall j, (j < modes)%nat -> folded_mode a p (sqw j) (l j) /\ forall l', folded_mode a p (sqw j) l' -> l' = l j) /\
  forall e, 0 < e -> exists N, forall m0 m1, (N < m0)%nat -> (N < m1)%nat ->
    exists r v, fst (convolution_SMA g a modes sqw pref nargout ps "fix" (AList [Z.of_nat m0; Z.of_nat m1]) seed s) = Ok r /\
      nth_error r i = Some (Some v) /\ Rabs (v - (me_R0 p * Rsum (map (fun j => l j * pf j i) (seq 0 modes)) + bg i)) <=
        5 / 10 ^ 5 * (sqrt (2 * PI) ^ 3 / sqrt (det_of (me_M p) / me_M p 3%nat 3%nat)) * Rsum (map (fun j => b j * Rabs (pf j i)) (seq 0 modes)) * Rabs (me_R0 p) + e.
Proof.
  intros St g a modes sqw b pref nargout pf bg ps seed s i p L A Ei P Sm.
  destruct (sma_modes a p sqw b pf i P modes Sm) as [l [F H]]. exists l. split; [intros j Lj; split; [apply F; exact Lj|intros l'; apply folded_mode_unique, F; exact Lj]|].
  fold (rest (me_M p)). apply (comes_scal _ _ _ (me_R0 p)) in H. assert (H2 := comes_plus _ _ _ _ _ _ H (comes_const (bg i))). clear H.
  intros e Pe. destruct (H2 e Pe) as [N HN]. exists N. intros m0 m1 L0 L1. rewrite (sma_fix g a modes sqw pref nargout ps pf bg _ m0 m1) by (auto using ints_ok).
  simpl fst. eexists. eexists. split; [reflexivity|]. rewrite mapi_nth, Ei. simpl option_map. rewrite point_ok; [split; [reflexivity|]|exact P|intros j q Lj; destruct (Sm j Lj) as (_ & _ & _ & W); rewrite W; lra].
  specialize (HN m0 m1 L0 L1). cbv beta in HN. destruct m0 as [|m0]; [lia|]. destruct m1 as [|m1]; [lia|]. unfold one_point. simpl (0 + i)%nat.
  set (X := Rsum (map (fun j => trip _ _ _ / _ * _) _)) in *. replace (X * step (S m0) ^ 2 * step (S m1) * 1 * 1 ^ 2 * me_R0 p + bg i - (me_R0 p * Rsum (map (fun j => l j * pf j i) (seq 0 modes)) + bg i))
    with (X * step (S m0) ^ 2 * step (S m1) * me_R0 p + bg i - (Rsum (map (fun j => l j * pf j i) (seq 0 modes)) * me_R0 p + bg i)) by ring.
  eapply Rle_trans; [exact HN|]. right. unfold Rdiv. ring.
Qed.
Print Assumptions C76_converges.

(** ** Modes that follow the resolution ellipsoid *)
(** Over the resolution volume the dispersion surface runs along the direction in which the resolution function is longest in
    energy, the intensity is linear and the width is the same everywhere; a flat mode is one if energy and wave vector are not coupled. *)
Definition focused (a : axes) (p : meas) (md : mode) (w0 g : R) : Prop :=
  (forall d1 d2 d3, disp md (shifted a p d1 d2 d3) = w0 - (me_M p 0%nat 3%nat * d1 + me_M p 1%nat 3%nat * d2) / me_M p 3%nat 3%nat) /\
  (exists n c, forall q, inte md q = dot n q + c) /\ forall q, wl md q = g.
Theorem C76_focused : exists c, Rabs (c 0%nat - sqrt (2 * PI)) <= / 10 ^ 4 /\ (forall e, 0 < e -> exists N, forall m, (N < m)%nat -> Rabs (c m - sqrt (2 * PI)) <= e) /\
  forall St (g : rng St) a modes sqw w0 gam pref nargout pf bg ps seed s i p m0 m1 more,
  List.length ps <> 1%nat -> given pref nargout pf bg -> nth_error ps i = Some p -> proper (me_M p) -> (forall j, (j < modes)%nat -> focused a p (sqw j) (w0 j) (gam j) /\ 0 <= gam j) ->
  exists r k, fst (convolution_SMA g a modes sqw pref nargout ps "fix" (AList (Z.of_nat m0 :: Z.of_nat m1 :: more)) seed s) = Ok r /\
    (forall j, (j < modes)%nat -> voigt (sqrt (me_M p 3%nat 3%nat / 2) * (w0 j - me_w p)) (sqrt (me_M p 3%nat 3%nat / 2) * gam j) = Some (k j)) /\
    nth_error r i = Some (Some (me_R0 p * (c m0 ^ 2 * c m1 / sqrt (det_of (me_M p) / me_M p 3%nat 3%nat)) * Rsum (map (fun j => inte (sqw j) (me_q p) * k j * pf j i) (seq 0 modes)) + bg i)).
Proof.
  exists norm1. split; [apply norm1_0|]. split; [apply norm1_lim|]. intros St g a modes sqw w0 gam pref nargout pf bg ps seed s i p m0 m1 more L A Ei P Sm.
  rewrite (sma_fix g a modes sqw pref nargout ps pf bg _ m0 m1) by (auto using ints_ok). destruct (pivots _ P) as [W [Y [X Z]]]. assert (S2 := sqrt_lt_R0 (me_M p 3%nat 3%nat / 2) ltac:(lra)).
  exists (mapi (sma_point a modes sqw pf bg m0 m1) 0 ps), (fun j => shape (sqrt (me_M p 3%nat 3%nat / 2) * (w0 j - me_w p)) (sqrt (me_M p 3%nat 3%nat / 2) * gam j)). split; [reflexivity|]. split.
  { intros j Lj. apply shape_ok. apply Rmult_le_pos; [lra|apply Sm; exact Lj]. }
  rewrite mapi_nth, Ei. simpl option_map. rewrite point_ok; [|exact P|intros j q Lj; destruct (Sm j Lj) as [(_ & _ & G) G0]; rewrite G; exact G0]. f_equal. f_equal. f_equal. fold (rest (me_M p)). assert (Pr := rest_pos _ P).
  rewrite (Rsum_ext _ (fun j => ssum m0 ^ 2 * ssum m1 / rest (me_M p) * (inte (sqw j) (me_q p) * shape (sqrt (me_M p 3%nat 3%nat / 2) * (w0 j - me_w p)) (sqrt (me_M p 3%nat 3%nat / 2) * gam j) * pf j i))).
  { rewrite Rsum_scal. unfold norm1, Rdiv. ring. }
  intros j I. apply in_seq in I. destruct (Sm j ltac:(lia)) as [(D & [n [c0 In]] & G) G0]. set (m := me_M p) in *. set (k := shape _ _). set (F := fac m).
  assert (E : trip (added_r a m (sqw j) p) m0 m1 = k * inte (sqw j) (me_q p) * ssum m0 ^ 2 * ssum m1).
  { set (B := k * (fqxx F * dot n (ax_x a))). set (C := k * (fqy F * dot n (ax_y a) - fqxy F * dot n (ax_x a))). set (D' := k * (fqz F * dot n (ax_z a))).
    rewrite <- (trip_lin (k * inte (sqw j) (me_q p)) B C D'). unfold trip. do 3 (apply Rsum_ext; intros ? _). f_equal. f_equal. unfold added_r. cbv zeta. fold F. rewrite D, G, In, In.
    set (d1 := fqxx F * _ - _). set (d2 := fqy F * _). set (d3 := fqz F * _).
    assert (Eo : gamma_f F * (w0 j - (m 0%nat 3%nat * d1 + m 1%nat 3%nat * d2) / m 3%nat 3%nat - me_w p) + omega_x F * d1 + omega_y F * d2 = sqrt (m 3%nat 3%nat / 2) * (w0 j - me_w p)).
    { unfold F, fac. cbn [gamma_f omega_x omega_y]. clearbody d1 d2. set (M := m 3%nat 3%nat) in *. assert (Bs := sqrt_sqrt (M / 2) ltac:(lra)). set (s0 := sqrt (M / 2)) in *.
      assert (Cs : sqrt (2 * M) = 2 * s0). { apply sqrt_lem_1; [lra|lra|]. replace (2 * s0 * (2 * s0)) with (4 * (s0 * s0)) by ring. rewrite Bs. field. } rewrite Cs. clearbody s0. assert (Dm : M = 2 * (s0 * s0)) by lra. rewrite Dm. field. lra. }
    rewrite Eo. rewrite (Rmult_comm (gam j)). change (gamma_f F) with (sqrt (m 3%nat 3%nat / 2)). fold k. unfold B, C, D', d1, d2, d3, shifted, dot. simpl. ring. }
  rewrite E. field. lra.
Qed.
Print Assumptions C76_focused.

(** * Monte Carlo *)
Lemma sma_turns_ok {St} (g : rng St) seed f n : forall acc s,
  (forall j, fst (sma_turns g seed f n acc s) j = oplus (acc j) (osum (map (fun k => f (fun i c => drawn g seed k s i c * PI - PI / 2) j) (seq 0 n)))) /\
  snd (sma_turns g seed f n acc s) = after g seed n s.
Proof.
  induction n as [|n IH]; intros acc s; [split; [intros j; simpl; destruct (acc j); simpl; [f_equal; ring|reflexivity]|reflexivity]|].
  simpl sma_turns. unfold next. fold (before g seed s). assert (D0 : drawn g seed 0 s = fst (draw g (before g seed s))) by reflexivity. assert (S1 : after g seed 1 s = snd (draw g (before g seed s))) by reflexivity.
  destruct (draw g (before g seed s)) as [r s'] eqn:Ed. cbn [fst snd] in D0, S1. destruct (IH (fun j => oplus (acc j) (f (fun i k => r i k * PI - PI / 2) j)) s') as [A B]. split.
  - intros j. etransitivity; [exact (A j)|]. rewrite oplus_assoc. simpl seq. cbn [map]. rewrite D0. rewrite <- seq_shift, map_map. change (osum (?x :: ?l)) with (oplus x (osum l)). f_equal. f_equal. f_equal. apply map_ext. intros k. rewrite <- S1. unfold drawn. rewrite after_add, Nat.add_1_r. reflexivity.
  - etransitivity; [exact B|]. rewrite <- S1, after_add, Nat.add_1_r. reflexivity.
Qed.
Definition turn (a : axes) (md : mode) (p : meas) (c : nat -> nat -> R) : option R := match factors_of (me_M p) with Some F => sma_mc a F md p c | None => None end.
Definition sma_value (modes : nat) (pf : nat -> nat -> R) (bg : nat -> R) (z : Z) (i : nat) (p : meas) (acc : nat -> option R) : option R :=
  match factors_of (me_M p) with None => None | Some F => if Z.eqb z 0 then None
    else option_map (fun v => v / IZR z / 1000 * PI ^ 3 * me_R0 p + bg i) (osum (map (fun j => option_map (fun v => v * pf j i) (acc j)) (seq 0 modes))) end.
Lemma sma_points_ok {St} (g : rng St) seed a modes sqw pf bg z : forall ps i s,
  sma_points g seed a modes sqw pf bg z i ps s =
  (mapi (fun i' p => sma_value modes pf bg z i' p (fun j => osum (map (fun k => turn a (sqw j) p (fun x c => drawn g seed ((i' - i) * Z.to_nat z + k) s x c * PI - PI / 2)) (seq 0 (Z.to_nat z))))) i ps,
   after g seed (List.length ps * Z.to_nat z) s).
Proof.
  induction ps as [|p ps IH]; intros i s; [reflexivity|]. cbn [sma_points mapi List.length]. set (n := Z.to_nat z) in *.
  destruct (sma_turns_ok g seed (fun c j => turn a (sqw j) p c) n (fun _ => Some 0) s) as [A B]. unfold turn at 1 in A. unfold turn at 1 in B. destruct (sma_turns g seed _ n (fun _ => Some 0) s) as [acc s'] eqn:Em. cbn [fst snd] in A, B.
  rewrite IH, B, after_add. replace (List.length ps * n + n)%nat with (S (List.length ps) * n)%nat by lia. apply (f_equal2 pair); [apply (f_equal2 cons)|reflexivity].
  - unfold sma_value. destruct (factors_of (me_M p)) as [F|] eqn:EF; [|reflexivity]. destruct (Z.eqb z 0); [reflexivity|]. apply f_equal, f_equal, map_ext. intros j. rewrite A, Nat.sub_diag. apply f_equal. cbn [Nat.mul Nat.add].
    assert (O0 : forall x, oplus (Some 0) x = x) by (intros [x|]; simpl; [f_equal; ring|reflexivity]). rewrite O0. apply f_equal, map_ext. intros k. unfold turn. rewrite EF. reflexivity.
  - assert (E : forall l k, (S i <= k)%nat -> mapi (fun i' p => sma_value modes pf bg z i' p (fun j => osum (map (fun k => turn a (sqw j) p (fun x c => drawn g seed ((i' - S i) * n + k) (after g seed n s) x c * PI - PI / 2)) (seq 0 n)))) k l
      = mapi (fun i' p => sma_value modes pf bg z i' p (fun j => osum (map (fun k => turn a (sqw j) p (fun x c => drawn g seed ((i' - i) * n + k) s x c * PI - PI / 2)) (seq 0 n)))) k l); [|apply E; lia].
    induction l as [|x l IHl]; intros k Lk; cbn [mapi]; [reflexivity|]. apply (f_equal2 cons); [|apply IHl; lia]. apply f_equal. apply FunctionalExtensionality.functional_extensionality. intros j. apply f_equal.
    apply map_ext. intros c. unfold drawn. rewrite after_add. replace ((k - S i) * n + c + n)%nat with ((k - i) * n + c)%nat; [reflexivity|]. replace (k - i)%nat with (S (k - S i)) by lia. simpl. lia.
Qed.
Lemma sma_mc_result {St} (g : rng St) a modes sqw pref nargout ps pf bg acc z seed s : List.length ps <> 1%nat -> given pref nargout pf bg -> mc_accuracy acc = Ok z ->
  convolution_SMA g a modes sqw pref nargout ps "mc" acc seed s = let '(r, s) := sma_points g seed a modes sqw pf bg z 0 ps s in (Ok r, s).
Proof.
  intros L A Ac. unfold convolution_SMA. rewrite (given_ok _ _ _ _ A), Ac. destruct ps as [|p [|p' ps]]; try reflexivity. exfalso. apply L. reflexivity.
Qed.
Definition mc_weight (tx ty tz : R) : R := exp (- (5 / 10) * (tx ^ 2 + ty ^ 2 + tz ^ 2)) * (1 + tx ^ 2) * (1 + ty ^ 2) * (1 + tz ^ 2).
Definition turn_r (a : axes) (md : mode) (p : meas) (c : nat -> nat -> R) : R :=
  Rsum (map (fun k => added_r a (me_M p) md p (tan (c 0%nat k)) (tan (c 1%nat k)) (tan (c 2%nat k)) * mc_weight (tan (c 0%nat k)) (tan (c 1%nat k)) (tan (c 2%nat k)) / rest (me_M p)) (seq 0 1000)).
Lemma turn_ok a md p c : proper (me_M p) -> (forall q, 0 <= wl md q) -> turn a md p c = Some (turn_r a md p c).
Proof.
  intros P Wl. unfold turn. rewrite factors_ok by exact P. unfold sma_mc, turn_r. apply osum_some. intros k _. cbv zeta. rewrite added_ok by auto. cbn [option_map]. f_equal. fold (mc_weight (tan (c 0%nat k)) (tan (c 1%nat k)) (tan (c 2%nat k))).
  rewrite <- fac_rest by exact P. destruct (fac_pos _ P) as (_ & _ & _ & _ & A & B). field. split; lra.
Qed.
Lemma value_ok modes pf bg n i p (f : nat -> nat -> option R) (h : nat -> nat -> R) : proper (me_M p) -> (0 < n)%nat -> (forall j k, (j < modes)%nat -> f j k = Some (h j k)) ->
  sma_value modes pf bg (Z.of_nat n) i p (fun j => osum (map (f j) (seq 0 n))) =
  Some (me_R0 p * PI ^ 3 * (Rsum (map (fun k => Rsum (map (fun j => pf j i * h j k) (seq 0 modes))) (seq 0 n)) / (1000 * INR n)) + bg i).
Proof.
  intros P Pn H. unfold sma_value. rewrite factors_ok by exact P. replace (Z.eqb (Z.of_nat n) 0) with false by (symmetry; apply Z.eqb_neq; lia).
  rewrite (osum_some _ (fun j => Rsum (map (h j) (seq 0 n)) * pf j i)).
  - cbn [option_map]. f_equal. f_equal. rewrite <- (Rsum_swap (fun j k => pf j i * h j k)). rewrite (Rsum_ext (fun j => Rsum (map (fun k => pf j i * h j k) _)) (fun j => Rsum (map (h j) (seq 0 n)) * pf j i)) by (intros; rewrite Rsum_scal; ring).
    rewrite <- INR_IZR_INZ. assert (INR n <> 0) by (apply not_0_INR; lia). field. auto.
  - intros j I. apply in_seq in I. rewrite (osum_some _ (h j)) by (intros; apply H; lia). reflexivity.
Qed.

(** A linear substitution that turns the quadratic form, with the energy at its best, into a sum of squares. *)
Definition straightens3 (m : mat) (D : R -> R -> R -> vec) : Prop :=
  (exists T : nat -> nat -> R, forall t1 t2 t3 i, (i < 3)%nat -> D t1 t2 t3 i = T i 0%nat * t1 + T i 1%nat * t2 + T i 2%nat * t3) /\
  forall t1 t2 t3, let d := D t1 t2 t3 in qf 4 m (off (d 0%nat) (d 1%nat) (d 2%nat) (- (m 0%nat 3%nat * d 0%nat + m 1%nat 3%nat * d 1%nat) / m 3%nat 3%nat)) = t1 ^ 2 + t2 ^ 2 + t3 ^ 2.

(** ** Monte Carlo takes the mean over the points drawn *)
Theorem C76_mc : forall m, proper m -> exists D, straightens3 m D /\
  forall St (g : rng St) a modes sqw pref nargout pf bg ps acc n seed s,
  List.length ps <> 1%nat -> given pref nargout pf bg -> turns_asked acc n -> (0 < n)%nat -> (forall j q, (j < modes)%nat -> 0 <= wl (sqw j) q) ->
  exists r K, convolution_SMA g a modes sqw pref nargout ps "mc" acc seed s = (Ok r, after g seed (List.length ps * n) s) /\ List.length r = List.length ps /\
  (forall x y, 0 <= y -> voigt x y = Some (K x y)) /\
  forall i p, nth_error ps i = Some p -> me_M p = m ->
    nth_error r i = Some (Some (me_R0 p * (PI ^ 3 / sqrt (det_of m / m 3%nat 3%nat)) *
      (Rsum (map (fun k => Rsum (map (fun c => let t x := tan (PI * drawn g seed (i * n + k) s x c - PI / 2) in let d := D (t 0%nat) (t 1%nat) (t 2%nat) in
         let q := shifted a p (d 0%nat) (d 1%nat) (d 2%nat) in
         Rsum (map (fun j => pf j i * (inte (sqw j) q * K (sqrt (m 3%nat 3%nat / 2) * (disp (sqw j) q - me_w p + (m 0%nat 3%nat * d 0%nat + m 1%nat 3%nat * d 1%nat) / m 3%nat 3%nat)) (sqrt (m 3%nat 3%nat / 2) * wl (sqw j) q))) (seq 0 modes)) *
         exp (- / 2 * (t 0%nat ^ 2 + t 1%nat ^ 2 + t 2%nat ^ 2)) * ((1 + t 0%nat ^ 2) * (1 + t 1%nat ^ 2) * (1 + t 2%nat ^ 2)))
        (seq 0 1000))) (seq 0 n)) / (1000 * INR n)) + bg i)).
Proof.
  intros m P. set (F := fac m). destruct (pivots _ P) as [W _].
  exists (fun t1 t2 t3 => off (fqxx F * t1 - fqxy F * t2) (fqy F * t2) (fqz F * t3) 0).
  assert (Eo : forall w d1 d2, gamma_f F * w + omega_x F * d1 + omega_y F * d2 = sqrt (m 3%nat 3%nat / 2) * (w + (m 0%nat 3%nat * d1 + m 1%nat 3%nat * d2) / m 3%nat 3%nat)).
  { intros w d1 d2. unfold F, fac. cbn [gamma_f omega_x omega_y]. set (M := m 3%nat 3%nat) in *. assert (S2 := sqrt_lt_R0 (M / 2) ltac:(lra)). assert (Bs := sqrt_sqrt (M / 2) ltac:(lra)). set (s0 := sqrt (M / 2)) in *.
    assert (Cs : sqrt (2 * M) = 2 * s0). { apply sqrt_lem_1; [lra|lra|]. replace (2 * s0 * (2 * s0)) with (4 * (s0 * s0)) by ring. rewrite Bs. field. } rewrite Cs. clearbody s0. assert (Dm : M = 2 * (s0 * s0)) by lra. rewrite Dm. field. lra. }
  split.
  { split.
    - exists (fun i j => match i, j with 0%nat, 0%nat => fqxx F | 0%nat, 1%nat => - fqxy F | 1%nat, 1%nat => fqy F | 2%nat, 2%nat => fqz F | _, _ => 0 end).
      intros t1 t2 t3 [|[|[|i]]] Li; try lia; unfold off; ring.
    - intros t1 t2 t3 d. unfold d. cbn [off]. unfold F at 1 2 3 4. rewrite (fac_form m t1 t2 t3) by exact P. fold F. rewrite Eo. field. lra. }
  intros St g a modes sqw pref nargout pf bg ps acc n seed s L A Ta Pn Wl. rewrite (sma_mc_result g a modes sqw pref nargout ps pf bg acc (Z.of_nat n)) by (auto using turns_asked_ok).
  rewrite sma_points_ok, Nat2Z.id. eexists. exists shape. split; [reflexivity|]. split; [apply mapi_length|]. split; [intros; apply shape_ok; assumption|].
  intros i p Ei Em. rewrite mapi_nth, Ei. simpl option_map. rewrite Nat.sub_0_r.
  rewrite (value_ok _ _ _ _ _ _ _ (fun j k => turn_r a (sqw j) p (fun x c => drawn g seed (i * n + k) s x c * PI - PI / 2))); [|rewrite Em; exact P|exact Pn|intros; apply turn_ok; [rewrite Em; exact P|intros; apply Wl; assumption]].
  f_equal. f_equal. f_equal. fold (rest m). assert (Pr := rest_pos m P). assert (Nn : INR n <> 0) by (apply not_0_INR; lia).
  match goal with |- _ * PI ^ 3 * (?X / _) = _ * (PI ^ 3 / rest m) * (?Y / _) => assert (E : X = Y * / rest m); [|rewrite E; field; lra] end.
  rewrite Rmult_comm, <- Rsum_scal. apply Rsum_ext. intros k _. unfold turn_r. rewrite Em.
  rewrite (Rsum_ext _ (fun j => Rsum (map (fun c => pf j i * (let t x := tan (drawn g seed (i * n + k) s x c * PI - PI / 2) in added_r a m (sqw j) p (t 0%nat) (t 1%nat) (t 2%nat) * mc_weight (t 0%nat) (t 1%nat) (t 2%nat) / rest m)) (seq 0 1000)))) by (intros; rewrite Rsum_scal; reflexivity).
  rewrite (Rsum_swap (fun j c => pf j i * _)). rewrite <- Rsum_scal. apply Rsum_ext. intros c _. cbv zeta. rewrite !(Rmult_comm PI). set (t1 := tan _). set (t2 := tan _). set (t3 := tan _). cbn [off].
  set (d1 := fqxx F * t1 - fqxy F * t2). set (d2 := fqy F * t2). set (d3 := fqz F * t3). set (q := shifted a p d1 d2 d3).
  rewrite (Rsum_ext _ (fun j => mc_weight t1 t2 t3 / rest m * (pf j i * (inte (sqw j) q * shape (sqrt (m 3%nat 3%nat / 2) * (disp (sqw j) q - me_w p + (m 0%nat 3%nat * d1 + m 1%nat 3%nat * d2) / m 3%nat 3%nat)) (sqrt (m 3%nat 3%nat / 2) * wl (sqw j) q))))).
  - rewrite Rsum_scal. unfold mc_weight. replace (- / 2 * (t1 ^ 2 + t2 ^ 2 + t3 ^ 2)) with (- (5 / 10) * (t1 ^ 2 + t2 ^ 2 + t3 ^ 2)) by field. unfold Rdiv. ring.
  - intros j _. unfold added_r. cbv zeta. fold F d1 d2 d3 q. rewrite Eo. rewrite (Rmult_comm (wl _ _)). change (gamma_f F) with (sqrt (m 3%nat 3%nat / 2)). unfold Rdiv. ring.
Qed.
Print Assumptions C76_mc.

(** ** With a seed every turn draws the same points *)
Lemma osum_same (o : option R) n : (0 < n)%nat -> osum (map (fun _ => o) (seq 0 n)) = option_map (fun v => INR n * v) o.
Proof.
  intros Pn. destruct o as [v|].
  - rewrite (osum_some _ (fun _ => v)) by reflexivity. rewrite Rsum_const, seq_length. reflexivity.
  - destruct n; [lia|]. reflexivity.
Qed.
Theorem C76_seed : forall St (g : rng St) a modes sqw pref nargout ps acc acc' n n' z s s',
  turns_asked acc n -> turns_asked acc' n' -> (0 < n)%nat -> (0 < n')%nat ->
  fst (convolution_SMA g a modes sqw pref nargout ps "mc" acc (Some z) s) = fst (convolution_SMA g a modes sqw pref nargout ps "mc" acc' (Some z) s') /\
  forall r, fst (convolution_SMA g a modes sqw pref nargout ps "mc" acc (Some z) s) = Ok r -> ps <> [] ->
    snd (convolution_SMA g a modes sqw pref nargout ps "mc" acc (Some z) s) = snd (draw g (reseed g z)).
Proof.
  intros St g a modes sqw pref nargout ps acc acc' n n' z s s' A A' Pn Pn'.
  assert (V : forall acc n s, turns_asked acc n -> (0 < n)%nat -> convolution_SMA g a modes sqw pref nargout ps "mc" acc (Some z) s =
    match ps with [_] => (Err IndexError, s) | _ => match sma_prefactors pref nargout with Err e => (Err e, s) | Ok (pf, bg) =>
      (Ok (mapi (fun i p => match factors_of (me_M p) with None => None | Some F => option_map (fun v => v / 1000 * PI ^ 3 * me_R0 p + bg i)
         (osum (map (fun j => option_map (fun v => v * pf j i) (turn a (sqw j) p (fun x c => fst (draw g (reseed g z)) x c * PI - PI / 2))) (seq 0 modes))) end) 0 ps),
       match ps with [] => s | _ => snd (draw g (reseed g z)) end) end end).
  { clear. intros acc n s A Pn. unfold convolution_SMA. rewrite (turns_asked_ok _ _ A). destruct ps as [|p [|p' ps]]; [|reflexivity|].
    - destruct (sma_prefactors pref nargout) as [[pf bg]|e]; reflexivity.
    - set (l := p :: p' :: ps). destruct (sma_prefactors pref nargout) as [[pf bg]|e]; [|reflexivity]. cbn [String.eqb Ascii.eqb Bool.eqb]. rewrite sma_points_ok, Nat2Z.id. f_equal.
      + f_equal. apply mapi_ext. intros i x.
        unfold sma_value. destruct (factors_of (me_M x)) as [F|] eqn:EF; [|reflexivity]. replace (Z.eqb (Z.of_nat n) 0) with false by (symmetry; apply Z.eqb_neq; lia).
        rewrite (map_ext _ (fun j => option_map (fun v => INR n * v) (option_map (fun v => v * pf j i) (turn a (sqw j) x (fun x0 c => fst (draw g (reseed g z)) x0 c * PI - PI / 2))))).
        2:{ intros j. rewrite (map_ext _ (fun _ => turn a (sqw j) x (fun x0 c => fst (draw g (reseed g z)) x0 c * PI - PI / 2))) by (intros; reflexivity). rewrite osum_same by exact Pn. destruct (turn a (sqw j) x _); simpl; [f_equal; ring|reflexivity]. }
        rewrite <- INR_IZR_INZ. assert (Nn : INR n <> 0) by (apply not_0_INR; lia).
        assert (E : forall (f : nat -> option R) l, osum (map (fun j => option_map (fun v => INR n * v) (f j)) l) = option_map (fun v => INR n * v) (osum (map f l))).
        { intros f l0. induction l0 as [|j l0 IH]; [simpl; f_equal; ring|]. cbn [map]. change (osum (?x :: ?l)) with (oplus x (osum l)). rewrite IH. change (osum (f j :: map f l0)) with (oplus (f j) (osum (map f l0))). destruct (f j), (osum (map f l0)); simpl; try reflexivity. f_equal. ring. }
        rewrite E. destruct (osum (map _ (seq 0 modes))) as [v|]; [|reflexivity]. cbn [option_map]. f_equal. f_equal. f_equal. f_equal. f_equal. field. exact Nn.
      + unfold l. cbn [List.length]. destruct n; [lia|]. reflexivity. }
  rewrite (V acc n s A Pn), (V acc' n' s' A' Pn'). split.
  - destruct ps as [|p [|p' ps]]; [| reflexivity |]; destruct (sma_prefactors pref nargout) as [[pf bg]|e]; reflexivity.
  - intros r E N. destruct ps as [|p [|p' ps]]; [contradiction| discriminate |]. destruct (sma_prefactors pref nargout) as [[pf bg]|e]; [reflexivity|discriminate].
Qed.
Print Assumptions C76_seed.

(** ** The result is linear in the intensities, and increases with them for modes without width *)
Lemma shape_sharp x : 0 < shape x 0.
Proof.
  destruct (C76_line_sharp x) as [y [E [B X]]]. unfold shape. rewrite E. destruct (Rlt_dec (176 / 195) (Rabs x)) as [L|L]; [rewrite X by exact L; apply exp_pos|].
  assert (Q : x ^ 2 <= (176 / 195) ^ 2) by (rewrite <- (pow2_abs x); apply pow_incr; split; [apply Rabs_pos|lra]). assert (E1 := exp_ineq1_le (- x ^ 2)). apply Rabs_le_between in B. lra.
Qed.
Definition additive (F : (v3 -> R) -> R) : Prop := forall f h k, F (fun q => k * f q + h q) = k * F f + F h.
Definition rising (F : (v3 -> R) -> R) : Prop := forall f h, (forall q, f q <= h q) -> F f <= F h.
Lemma mc_weight_pos x y z : 0 <= mc_weight x y z.
Proof. unfold mc_weight. repeat apply Rmult_le_pos; try nra. left. apply exp_pos. Qed.
Theorem C76_linear : forall St (g : rng St) a ps method acc seed s, List.length ps <> 1%nat -> good_call method acc ->
  exists (F : nat -> (v3 -> R) -> (v3 -> R) -> (v3 -> R) -> R) s',
  (forall i p dp w, nth_error ps i = Some p -> proper (me_M p) -> additive (F i dp w) /\ ((forall q, w q = 0) -> rising (F i dp w))) /\
  forall modes sqw pref nargout pf bg, given pref nargout pf bg -> (forall j q, (j < modes)%nat -> 0 <= wl (sqw j) q) ->
    exists r, convolution_SMA g a modes sqw pref nargout ps method acc seed s = (Ok r, s') /\ List.length r = List.length ps /\
      forall i p, nth_error ps i = Some p -> proper (me_M p) -> nth_error r i = Some (Some (me_R0 p * Rsum (map (fun j => pf j i * F i (disp (sqw j)) (wl (sqw j)) (inte (sqw j))) (seq 0 modes)) + bg i)).
Proof.
  intros St g a ps method acc seed s L [[-> Ac]|[-> [n [Pn Ac]]]].
  - assert (E : exists m0 m1, fix_accuracy acc = Ok (m0, m1)). { destruct Ac as [->|(m0 & m1 & more & ->)]; [exists 7%nat, 0%nat; reflexivity|exists m0, m1; apply ints_ok]. } destruct E as [m0 [m1 E]].
    exists (fun i dp w f => match nth_error ps i with Some p => trip (added_r a (me_M p) (mkMode dp f w) p) m0 m1 * (step m0 ^ 2 * step m1 / rest (me_M p) * one_point m1 * one_point m0 ^ 2) | None => 0 end), s. split.
    + intros i p dp w Ei P. rewrite Ei. assert (Pr := rest_pos _ P). assert (S0 := step_pos m0). assert (S1 := step_pos m1). assert (O0 := one_point_pos m0). assert (O1 := one_point_pos m1). split.
      * intros f h k. replace (trip (added_r a (me_M p) (mkMode dp (fun q => k * f q + h q) w) p) m0 m1) with (k * trip (added_r a (me_M p) (mkMode dp f w) p) m0 m1 + trip (added_r a (me_M p) (mkMode dp h w) p) m0 m1); [ring|].
        rewrite <- trip_scal, <- trip_plus. unfold trip. do 3 (apply Rsum_ext; intros ? _). f_equal. f_equal. unfold added_r. cbn [inte disp wl]. ring.
      * intros W0 f h Lf. apply Rmult_le_compat_r.
        { apply Rmult_le_pos; [apply Rmult_le_pos; [|exact O1]|apply pow_le; exact O0]. apply Rmult_le_pos; [apply Rmult_le_pos; [apply pow_le|]; lra|]. left. apply Rinv_0_lt_compat. exact Pr. }
        apply trip_le. intros x y z. unfold added_r. cbn [inte disp wl]. rewrite W0, Rmult_0_l. apply Rmult_le_compat_r; [left; apply shape_sharp|apply Lf].
    + intros modes sqw pref nargout pf bg A Wl. rewrite (sma_fix g a modes sqw pref nargout ps pf bg _ m0 m1) by auto. eexists. split; [reflexivity|]. split; [apply mapi_length|]. intros i p Ei P. rewrite mapi_nth, Ei. simpl option_map. rewrite point_ok by auto.
      f_equal. f_equal. f_equal. rewrite (Rsum_ext (fun j => pf j i * _) (fun j => step m0 ^ 2 * step m1 * one_point m1 * one_point m0 ^ 2 * (trip (added_r a (me_M p) (sqw j) p) m0 m1 / rest (me_M p) * pf j i))).
      * rewrite Rsum_scal. ring.
      * intros j _. destruct (sqw j) as [dp f w]. cbn [disp inte wl]. unfold Rdiv. ring.
  - exists (fun i dp w f => match nth_error ps i with Some p => Rsum (map (fun k => turn_r a (mkMode dp f w) p (fun x c => drawn g seed (i * n + k) s x c * PI - PI / 2)) (seq 0 n)) * (PI ^ 3 / (1000 * INR n)) | None => 0 end), (after g seed (List.length ps * n) s).
    assert (Pn' : 0 < INR n) by (apply lt_0_INR; exact Pn). split.
    + intros i p dp w Ei P. rewrite Ei. assert (Pr := rest_pos _ P). split.
      * intros f h k. match goal with |- ?X * ?c = k * (?Y * ?c) + ?Z * ?c => assert (EX : X = k * Y + Z); [|rewrite EX; ring] end.
        rewrite <- Rsum_scal, <- Rsum_plus. apply Rsum_ext. intros c _. unfold turn_r. rewrite <- Rsum_scal, <- Rsum_plus. apply Rsum_ext. intros c' _. unfold added_r. cbn [inte disp wl]. unfold Rdiv. ring.
      * intros W0 f h Lf. apply Rmult_le_compat_r.
        { apply Rmult_le_pos; [apply pow_le; assert (Q := PI_RGT_0); lra|]. left. apply Rinv_0_lt_compat. lra. }
        apply Rsum_le. intros c _. unfold turn_r. apply Rsum_le. intros c' _. apply Rmult_le_compat_r; [left; apply Rinv_0_lt_compat; exact Pr|]. apply Rmult_le_compat_r; [apply mc_weight_pos|].
        unfold added_r. cbn [inte disp wl]. rewrite W0, Rmult_0_l. apply Rmult_le_compat_r; [left; apply shape_sharp|apply Lf].
    + intros modes sqw pref nargout pf bg A Wl. rewrite (sma_mc_result g a modes sqw pref nargout ps pf bg acc (Z.of_nat n)) by (auto using turns_asked_ok). rewrite sma_points_ok, Nat2Z.id. eexists. split; [reflexivity|]. split; [apply mapi_length|].
      intros i p Ei P. rewrite mapi_nth, Ei. simpl option_map. rewrite Nat.sub_0_r.
      rewrite (value_ok _ _ _ _ _ _ _ (fun j k => turn_r a (sqw j) p (fun x c => drawn g seed (i * n + k) s x c * PI - PI / 2))) by (auto; intros; apply turn_ok; auto).
      f_equal. f_equal. f_equal. rewrite <- (Rsum_swap (fun j k => pf j i * turn_r a (sqw j) p (fun x c => drawn g seed (i * n + k) s x c * PI - PI / 2))).
      rewrite (Rsum_ext (fun j => pf j i * (_ * _)) (fun j => PI ^ 3 / (1000 * INR n) * Rsum (map (fun k => pf j i * turn_r a (sqw j) p (fun x c => drawn g seed (i * n + k) s x c * PI - PI / 2)) (seq 0 n)))).
      * rewrite Rsum_scal. unfold Rdiv. ring.
      * intros j _. rewrite Rsum_scal. destruct (sqw j) as [dp f w]. cbn [disp inte wl]. ring.
Qed.
Print Assumptions C76_linear.

(** ** Only seven entries of the matrix matter *)
Theorem C76_unused : forall St (g : rng St) a modes sqw pref nargout ps ps' method acc seed s, Forall2 same_point ps ps' ->
  convolution_SMA g a modes sqw pref nargout ps method acc seed s = convolution_SMA g a modes sqw pref nargout ps' method acc seed s.
Proof.
  intros St g a modes sqw pref nargout ps ps' method acc seed s H.
  assert (T : forall p p', same_point p p' -> factors_of (me_M p) = factors_of (me_M p')).
  { intros p p' (_ & _ & _ & E). unfold factors_of. rewrite !E by (simpl; tauto). reflexivity. }
  assert (Sa : forall p p' F md x y z, same_point p p' -> added a F md p x y z = added a F md p' x y z). { intros p p' F md x y z (E1 & E2 & _). unfold added. rewrite E1, E2. reflexivity. }
  assert (Fx : forall p p' pf bg m0 m1 i, same_point p p' -> sma_point a modes sqw pf bg m0 m1 i p = sma_point a modes sqw pf bg m0 m1 i p').
  { intros p p' pf bg m0 m1 i E. unfold sma_point. rewrite (T _ _ E). destruct (factors_of (me_M p')) as [t|]; [|reflexivity]. assert (E3 : me_R0 p = me_R0 p') by apply E. rewrite E3. apply f_equal. apply f_equal.
    apply map_ext. intros j. apply f_equal. unfold sma_sum. do 3 (apply f_equal; apply map_ext; intros ?). rewrite (Sa p p') by exact E. reflexivity. }
  assert (Ft : forall p p' md c, same_point p p' -> turn a md p c = turn a md p' c).
  { intros p p' md c E. unfold turn. rewrite (T _ _ E). destruct (factors_of (me_M p')) as [t|]; [|reflexivity]. unfold sma_mc. apply f_equal. apply map_ext. intros k. cbv zeta. rewrite (Sa p p') by exact E. reflexivity. }
  assert (Fm : forall pf bg z n0, forall ps ps', Forall2 same_point ps ps' -> forall i, mapi (fun i' p => sma_value modes pf bg z i' p (fun j => osum (map (fun k => turn a (sqw j) p (fun x c => drawn g seed ((i' - 0) * n0 + k) s x c * PI - PI / 2)) (seq 0 n0)))) i ps
    = mapi (fun i' p => sma_value modes pf bg z i' p (fun j => osum (map (fun k => turn a (sqw j) p (fun x c => drawn g seed ((i' - 0) * n0 + k) s x c * PI - PI / 2)) (seq 0 n0)))) i ps').
  { clear H ps ps'. intros pf bg z n0 ps ps' H. induction H as [|p p' ps ps' E H IH]; intros i; cbn [mapi]; [reflexivity|]. rewrite IH. apply (f_equal2 cons); [|reflexivity]. unfold sma_value. rewrite (T _ _ E). assert (E3 : me_R0 p = me_R0 p') by apply E. rewrite E3.
    destruct (factors_of (me_M p')); [|reflexivity]. destruct (Z.eqb z 0); [reflexivity|]. apply f_equal. apply f_equal. apply map_ext. intros j. apply f_equal. apply f_equal. apply map_ext. intros k. apply Ft. exact E. }
  assert (Fi : forall pf bg m0 m1, forall ps ps', Forall2 same_point ps ps' -> forall i, mapi (sma_point a modes sqw pf bg m0 m1) i ps = mapi (sma_point a modes sqw pf bg m0 m1) i ps').
  { clear H ps ps'. intros pf bg m0 m1 ps ps' H. induction H as [|p p' ps ps' E H IH]; intros i; cbn [mapi]; [reflexivity|]. rewrite IH, (Fx p p') by exact E. reflexivity. }
  assert (H' := H). assert (Hl : List.length ps = List.length ps') by (clear - H; induction H; simpl; auto).
  unfold convolution_SMA. destruct H as [|p p' ps ps' E H]; [reflexivity|]. destruct H as [|p2 p2' ps ps' E2 H]; [reflexivity|].
  destruct (sma_prefactors pref nargout) as [[pf bg]|e]; [|reflexivity]. destruct (String.eqb method "mc").
  - destruct (mc_accuracy acc) as [n|e]; [|reflexivity]. rewrite !sma_points_ok, (Fm pf bg n (Z.to_nat n) _ _ H'), Hl. reflexivity.
  - destruct (String.eqb method "fix"); [|reflexivity]. destruct (fix_accuracy acc) as [[m0 m1]|e]; [|reflexivity]. rewrite (Fi pf bg m0 m1 _ _ H'). reflexivity.
Qed.
Print Assumptions C76_unused.

(** ** Calls that do not give a result *)
Theorem C76_errors : forall St (g : rng St) a modes sqw pref nargout method acc seed s,
  let call ps := convolution_SMA g a modes sqw pref nargout ps method acc seed s in
  (forall p, call [p] = (Err IndexError, s)) /\
  (forall ps, List.length ps <> 1%nat -> pref = None -> call ps = (Err TypeError, s)) /\
  (forall ps, List.length ps <> 1%nat -> pref <> None -> nargout <> 1%Z -> nargout <> 2%Z -> call ps = (Err ValueError, s)) /\
  (forall ps pf bg, List.length ps <> 1%nat -> given pref nargout pf bg ->
    (method <> "fix"%string -> method <> "mc"%string -> call ps = (Err ValueError, s)) /\
    (method = "fix"%string -> (exists z, acc = AInt z) -> call ps = (Err TypeError, s)) /\
    (method = "fix"%string -> (exists l, acc = AList l /\ (List.length l < 2)%nat) -> call ps = (Err IndexError, s)) /\
    (method = "fix"%string -> (exists x y l, acc = AList (x :: y :: l) /\ (x < 0 \/ y < 0)%Z) -> call ps = (Err ValueError, s)) /\
    (method = "mc"%string -> (exists l, acc = AList l /\ List.length l <> 1%nat) -> call ps = (Err ValueError, s)) /\
    (method = "mc"%string -> acc = AInt 0 \/ acc = AList [0%Z] -> exists r, call ps = (Ok r, s) /\ List.length r = List.length ps /\ forall v, In v r -> v = None)).
Proof.
  intros St g a modes sqw pref nargout method acc seed s call. split; [reflexivity|]. split; [|split].
  - intros ps L ->. unfold call, convolution_SMA, sma_prefactors. destruct ps as [|p [|p' ps]]; try reflexivity. exfalso. apply L. reflexivity.
  - intros ps L N N1 N2. unfold call, convolution_SMA, sma_prefactors, prefactors. destruct pref as [[f b]|]; [|contradiction]. destruct (Z.eqb_spec nargout 2); [contradiction|]. destruct (Z.eqb_spec nargout 1); [contradiction|].
    destruct ps as [|p [|p' ps]]; try reflexivity. exfalso. apply L. reflexivity.
  - intros ps pf bg L A. assert (V : call ps = if String.eqb method "mc" then match mc_accuracy acc with Err e => (Err e, s) | Ok n => let '(r, s) := sma_points g seed a modes sqw pf bg n 0 ps s in (Ok r, s) end
      else if String.eqb method "fix" then match fix_accuracy acc with Err e => (Err e, s) | Ok (m0, m1) => (Ok (mapi (sma_point a modes sqw pf bg m0 m1) 0 ps), s) end else (Err ValueError, s)).
    { unfold call, convolution_SMA. rewrite (given_ok _ _ _ _ A). destruct ps as [|p [|p' ps]]; try reflexivity. exfalso. apply L. reflexivity. }
    rewrite V. clear V call. split; [|split; [|split; [|split; [|split]]]].
    + intros N1 N2. destruct (String.eqb_spec method "mc"); [contradiction|]. destruct (String.eqb_spec method "fix"); [contradiction|]. reflexivity.
    + intros -> [z ->]. reflexivity.
    + intros -> [l [-> Ll]]. destruct l as [|x [|y l]]; [reflexivity|reflexivity|]. simpl in Ll. lia.
    + intros -> (x & y & l & -> & N). cbn [String.eqb Ascii.eqb Bool.eqb fix_accuracy]. replace (Z.ltb x 0 || Z.ltb y 0)%bool with true; [reflexivity|]. symmetry. apply orb_true_iff. rewrite !Z.ltb_lt. exact N.
    + intros -> [l [-> Ll]]. destruct l as [|x [|y l]]; [reflexivity|exfalso; apply Ll; reflexivity|reflexivity].
    + intros -> Z0. replace (mc_accuracy acc) with (Ok 0%Z : res Z) by (destruct Z0 as [->| ->]; reflexivity). cbn [String.eqb Ascii.eqb Bool.eqb]. rewrite sma_points_ok. replace (List.length ps * Z.to_nat 0)%nat with 0%nat by (simpl; lia).
      eexists. split; [reflexivity|]. split; [apply mapi_length|]. intros v I. apply In_nth_error in I. destruct I as [i E]. rewrite mapi_nth in E. destruct (nth_error ps i) as [p|]; [|discriminate]. simpl in E. injection E. intros <-. unfold sma_value. destruct (factors_of (me_M p)); reflexivity.
Qed.
Print Assumptions C76_errors.

(** * A case *)
(** A mode with parabolic dispersion and an intensity that falls off. *)
Definition ex_mode : mode := mkMode (fun q => vx q ^ 2 + 3) (fun q => / (1 + vy q ^ 2)) (fun _ => 0).
Example C76_case_mode : plain ex_mode 1.
Proof.
  split; [|split; [|split; [|reflexivity]]].
  - intros q e Pe. exists (Rmin 1 (e / (2 * Rabs (vx q) + 1))). assert (A := Rabs_pos (vx q)). split; [apply Rmin_pos; [lra|apply Rdiv_lt_0_compat; lra]|].
    intros q' L _ _. assert (L1 := Rmin_l 1 (e / (2 * Rabs (vx q) + 1))). assert (L2 := Rmin_r 1 (e / (2 * Rabs (vx q) + 1))). cbn [disp ex_mode]. set (w := vx q) in *. set (w' := vx q') in *.
    replace (w' ^ 2 + 3 - (w ^ 2 + 3)) with ((w' - w) * (w + w')) by ring. rewrite Rabs_mult.
    assert (T : Rabs (w + w') <= 2 * Rabs w + 1). { replace (w + w') with ((w + w) + (w' - w)) by ring. eapply Rle_trans; [apply Rabs_triang|]. eapply Rle_trans; [apply Rplus_le_compat_r, Rabs_triang|]. lra. }
    apply Rle_trans with (e / (2 * Rabs w + 1) * (2 * Rabs w + 1)); [|right; field; lra]. apply Rmult_le_compat; try apply Rabs_pos; lra.
  - intros q e Pe. destruct C75_case_smooth as [C _]. destruct (C q (vy q) e Pe) as [d [Pd D]]. exists d. split; [exact Pd|]. intros q' L1 L2 L3. apply (D q' (vy q')); assumption.
  - intros q. destruct C75_case_smooth as [_ _]. cbn [inte ex_mode]. assert (P := pow2_ge_0 (vy q)). rewrite Rabs_right by (apply Rle_ge, Rlt_le, Rinv_0_lt_compat; lra). rewrite <- Rinv_1. apply Rinv_le_contravar; lra.
Qed.
Definition ex_axes : axes := mkAx (V 1 0 0) (V 0 1 0) (V 0 0 1).
Definition ex_meas : meas := mkMeas (V 1 0 0) 4 2 ex_m.
(** A plane through the longest direction of the ellipsoid. *)
Example C76_case_focused : focused ex_axes ex_meas (mkMode (fun q => 5 - (-2 * (vx q - 1) + vy q) / 6) (fun q => 2 * vx q + 1) (fun _ => 1 / 2)) 5 (1 / 2).
Proof.
  split; [|split; [|reflexivity]].
  - intros d1 d2 d3. unfold shifted, ex_meas, ex_axes, ex_m. simpl. field.
  - exists (V 2 0 0), 1. intros q. unfold dot. simpl. ring.
Qed.
Example C76_case_call : given (Some (fun j i => INR (j + i), fun i => INR i)) 2 (fun j i => INR (j + i)) (fun i => INR i).
Proof. split; [discriminate|]. split; [reflexivity|right; split; reflexivity]. Qed.

(** C81: convolution of single-mode cross sections with line width with the resolution function. *)
From Coq Require Import Reals.
From Coquelicot Require Import Coquelicot.
From Coq Require Import String List ZArith Lia Lra Psatz Bool.
From Verif Require Import Base LinAlg MatInv ConvModel Quad NumBounds Gauss ConvProps Quad3 SmaModel VoigtProps SmaProps VoigtDisk VoigtAcc VoigtInt VoigtRay VoigtAccProps.
Import ListNotations.
Local Open Scope R_scope.

(** A mode as a cross section: a Lorentzian in energy of half width [wl] around the dispersion surface, of area [inte]. *)
Definition lorentzian (md : mode) (q : v3) (w : R) : R := inte md q * (wl md q / PI / ((disp md q - w) ^ 2 + wl md q ^ 2)).
(** Its integral with exp(-(1/2) d M d) over all offsets, in the order energy, vertical, first and second axis. *)
Definition folded_wide (a : axes) (p : meas) (md : mode) (l : R) : Prop := exists I0 I1 I2,
  (forall d2 d1 d3, line (fun d4 => away a p (lorentzian md) d1 d2 d3 d4 * exp (- / 2 * qf 4 (me_M p) (off d1 d2 d3 d4))) (I0 d2 d1 d3)) /\
  (forall d2 d1, line (I0 d2 d1) (I1 d2 d1)) /\ (forall d2, line (I1 d2) (I2 d2)) /\ line I2 l.
(** Continuous, positive in width, bounded by [b] in intensity. *)
Definition wide (md : mode) (b : R) : Prop := cont3 (disp md) /\ cont3 (inte md) /\ cont3 (wl md) /\ (forall q, Rabs (inte md q) <= b) /\ forall q, 0 < wl md q.

(** * The Voigt profile as a function *)
Definition gK (x a th : R) : R := if Req_EM_T (cos th) 0 then 0 else exp (- (x + a * tan th) ^ 2) / PI.
Definition Kv (x a : R) : R := RInt (gK x a) (- (PI / 2)) (PI / 2).
Lemma exp_frac z : exp (- z ^ 2) <= / (1 + z ^ 2).
Proof.
  rewrite exp_Ropp. apply Rinv_le_contravar; [assert (0 <= z ^ 2) by apply pow2_ge_0; lra|]. apply exp_ineq1_le.
Qed.
Lemma gK_cont x a : 0 < a -> forall u : R, continuous (gK x a) u.
Proof.
  intros Pa u. assert (P0 := PI_RGT_0). destruct (Req_EM_T (cos u) 0) as [Z|N].
  - assert (S1 : sin u <> 0). { intros S0. assert (T := sin2_cos2 u). unfold Rsqr in T. rewrite S0, Z in T. lra. }
    set (hh := fun u => cos u ^ 2 / (cos u ^ 2 + (x * cos u + a * sin u) ^ 2) / PI).
    assert (Hp : forall v, 0 < cos v ^ 2 + (x * cos v + a * sin v) ^ 2).
    { intros v. assert (A := pow2_ge_0 (cos v)). assert (B := pow2_ge_0 (x * cos v + a * sin v)). destruct (Req_EM_T (cos v) 0) as [Zv|Nv].
      - rewrite Zv. assert (T := sin2_cos2 v). unfold Rsqr in T. rewrite Zv in T. replace (0 ^ 2 + (x * 0 + a * sin v) ^ 2) with (a * a * (sin v * sin v)) by ring. replace (sin v * sin v) with 1 by lra. assert (0 < a * a) by (apply Rmult_lt_0_compat; assumption). lra.
      - assert (0 < cos v ^ 2) by (apply pow2_gt_0; exact Nv). lra. }
    assert (Ch : continuous hh u). { apply (ex_derive_continuous (K := R_AbsRing) (V := R_NormedModule)). unfold hh. auto_derive. assert (Hu := Hp u). simpl in Hu |- *. lra. }
    assert (H0 : hh u = 0) by (unfold hh; rewrite Z; unfold Rdiv; rewrite pow_i by lia; rewrite !Rmult_0_l; reflexivity).
    assert (G0 : gK x a u = 0) by (unfold gK; destruct Req_EM_T; [reflexivity|contradiction]).
    assert (Bd : forall v, 0 <= gK x a v <= hh v).
    { intros v. assert (Iv := Rinv_0_lt_compat _ (Hp v)). assert (IP := Rinv_0_lt_compat PI P0). unfold gK, hh. destruct Req_EM_T as [E|E].
      - split; [lra|]. unfold Rdiv. apply Rmult_le_pos; [apply Rmult_le_pos; [apply pow2_ge_0|lra]|lra].
      - split; [apply Rmult_le_pos; [apply Rlt_le, exp_pos|lra]|]. unfold Rdiv. apply Rmult_le_compat_r; [lra|]. eapply Rle_trans; [apply exp_frac|]. right.
        assert (Hv := Hp v). assert (Q1 := pow2_ge_0 (x + a * tan v)). unfold tan in *. set (c := cos v) in *. set (s := sin v) in *. clearbody c s.
        assert (E2 : 1 + (x + a * (s / c)) ^ 2 = (c ^ 2 + (x * c + a * s) ^ 2) / c ^ 2) by (field; exact E). rewrite E2. field. split; [lra|exact E]. }
    apply filterlim_locally. intros [e Pe]. assert (L := proj1 (filterlim_locally _ _) Ch (mkposreal e Pe)). generalize L. apply filter_imp. intros v Bv.
    unfold ball in *. simpl in *. unfold AbsRing_ball, abs, minus, plus, opp in *. simpl in *. rewrite H0 in Bv. rewrite G0. specialize (Bd v). rewrite Rabs_right in Bv by lra. rewrite Rabs_right by lra. lra.
  - apply (continuous_ext_loc (gK x a) (fun v => exp (- (x + a * tan v) ^ 2) / PI)).
    + assert (Cc : continuous cos u) by (apply (ex_derive_continuous (K := R_AbsRing) (V := R_NormedModule)); auto_derive; exact I).
      assert (Pc : 0 < Rabs (cos u)) by (apply Rabs_pos_lt; exact N). generalize (proj1 (filterlim_locally _ _) Cc (mkposreal _ Pc)). apply filter_imp. intros v Bv. unfold gK. destruct Req_EM_T as [E|E]; [|reflexivity].
      exfalso. unfold ball in Bv. simpl in Bv. unfold AbsRing_ball, abs, minus, plus, opp in Bv. simpl in Bv. rewrite E in Bv. rewrite Rplus_0_l, Rabs_Ropp in Bv. lra.
    + apply (ex_derive_continuous (K := R_AbsRing) (V := R_NormedModule)). apply (ex_derive_ext (fun v => exp (- (x + a * (sin v / cos v)) ^ 2) / PI)); [intros; reflexivity|]. auto_derive. repeat split; try exact I; exact N.
Qed.
Lemma cos_in u : Rabs u < PI / 2 -> cos u <> 0.
Proof. intros L. apply Rabs_def2 in L. apply Rgt_not_eq, cos_gt_0; lra. Qed.
(** The profile in any unit of energy. *)
Lemma Kv_line A c k o g : 0 < k -> 0 < g -> line (fun d => A * exp (- (g * d + o) ^ 2) * (k / PI / ((c - d) ^ 2 + k ^ 2))) (A * Kv (g * c + o) (g * k)).
Proof.
  intros Pk Pg. assert (P0 := PI_RGT_0). assert (Pa : 0 < g * k) by (apply Rmult_lt_0_compat; assumption).
  assert (E : A * Kv (g * c + o) (g * k) = RInt (fun u => A * gK (g * c + o) (g * k) u) (- (PI / 2)) (PI / 2)).
  { symmetry. apply (RInt_scal (V := R_CompleteNormedModule)). apply rint. apply gK_cont. exact Pa. }
  rewrite E. apply (over_line _ _ c k Pk).
  - intros u. apply (continuous_scal_r (K := R_AbsRing) (V := R_NormedModule) A (gK (g * c + o) (g * k)) u). apply gK_cont. exact Pa.
  - intros u L. unfold gK. destruct Req_EM_T as [Z|_]; [exfalso; exact (cos_in u L Z)|]. set (t := tan u). replace (g * (c + k * t) + o) with (g * c + o + g * k * t) by ring.
    assert (0 <= t ^ 2) by apply pow2_ge_0. replace ((c - (c + k * t)) ^ 2 + k ^ 2) with (k ^ 2 * (1 + t ^ 2)) by ring. field. repeat split; lra.
Qed.
Lemma Kv_conv x a : 0 < a -> is_lim (conv x a) p_infty (Kv x a).
Proof.
  intros Pa. assert (L := Kv_line 1 x a 0 1 Pa Rlt_0_1). rewrite Rmult_1_l in L. replace (1 * x + 0) with x in L by ring. replace (1 * a) with a in L by ring.
  intros P HP. destruct (L P HP) as [Q1 R1 [M1 H1] [M2 H2] H]. exists (Rmax (- M1) M2). intros T LT. assert (A1 := Rmax_l (- M1) M2). assert (A2 := Rmax_r (- M1) M2).
  destruct (H (- T) T) as [y [Hy Py]]; [apply H1; lra|apply H2; lra|]. simpl in Hy. unfold conv. replace (RInt _ (- T) T) with y; [exact Py|]. symmetry. apply is_RInt_unique. eapply is_RInt_ext; [|exact Hy]. intros u _. cbv beta. rewrite !Rmult_1_l, Rplus_0_r. reflexivity.
Qed.
Lemma Kv_acc x a : 0 < a -> Rabs (shape x a - Kv x a) <= 3 / 10 ^ 4.
Proof.
  intros Pa. destruct (C80_line_accuracy x a Pa) as (k & v & Hk & Ev & B). unfold shape. rewrite Ev. replace (Kv x a) with k; [exact B|].
  assert (U1 := is_lim_unique _ _ _ Hk). assert (U2 := is_lim_unique _ _ _ (Kv_conv x a Pa)). unfold conv in U2. rewrite U1 in U2. injection U2. auto.
Qed.
Lemma Kv_bound x a : 0 < a -> Rabs (Kv x a) <= 1.
Proof.
  intros Pa. assert (P0 := PI_RGT_0). replace 1 with ((PI / 2 - - (PI / 2)) * / PI) by (field; lra). unfold Kv. apply abs_RInt_le_const; [lra|apply rint, gK_cont, Pa|]. intros u _.
  assert (IP := Rinv_0_lt_compat PI P0). unfold gK. destruct Req_EM_T; [rewrite Rabs_R0; lra|]. assert (E := exp_pos (- (x + a * tan u) ^ 2)). assert (E1 := exp_frac (x + a * tan u)). assert (Q0 := pow2_ge_0 (x + a * tan u)).
  assert (E2 : / (1 + (x + a * tan u) ^ 2) <= 1) by (rewrite <- Rinv_1 at 2; apply Rinv_le_contravar; lra). unfold Rdiv. rewrite Rabs_mult, (Rabs_right (/ PI)), (Rabs_right (exp _)) by lra. nra.
Qed.
Lemma lor_near y a y' a' : 0 < a -> 0 < a' -> Rabs (a / PI / (y ^ 2 + a ^ 2) - a' / PI / (y' ^ 2 + a' ^ 2)) <= (Rabs (y - y') + Rabs (a - a')) * / (PI * a * a').
Proof.
  intros Pa Pa'. assert (P0 := PI_RGT_0). assert (IP := Rinv_0_lt_compat PI P0). assert (A2 := pow_lt a 2 Pa). assert (A2' := pow_lt a' 2 Pa'). assert (Y := pow2_ge_0 y). assert (Y' := pow2_ge_0 y').
  set (z := (a, y) : C). set (z' := (a', y') : C). assert (Nz : z <> 0%C) by (intros Z; apply (f_equal fst) in Z; cbn in Z; lra). assert (Nz' : z' <> 0%C) by (intros Z; apply (f_equal fst) in Z; cbn in Z; lra).
  assert (F : forall b v, 0 < b -> fst (/ ((b, v) : C))%C = b / (v ^ 2 + b ^ 2)). { intros b v Pb. cbn [fst snd Cinv]. f_equal. ring. }
  replace (a / PI / (y ^ 2 + a ^ 2) - a' / PI / (y' ^ 2 + a' ^ 2)) with (/ PI * fst (/ z - / z')%C).
  2:{ cbn [fst Cminus Cplus Copp]. unfold z, z'. change (fst (/ ((a, y) : C))%C) with (fst (/ ((a, y) : C))%C). rewrite (F a y Pa), (F a' y' Pa'). field. repeat split; lra. }
  rewrite Rabs_mult, (Rabs_right (/ PI)) by lra. replace ((Rabs (y - y') + Rabs (a - a')) * / (PI * a * a')) with (/ PI * ((Rabs (y - y') + Rabs (a - a')) * (/ a * / a'))) by (field; repeat split; lra).
  apply Rmult_le_compat_l; [lra|]. eapply Rle_trans; [apply fst_le|]. replace (/ z - / z')%C with ((z' - z) * (/ z * / z'))%C by (field; split; assumption). rewrite !Cmod_mult, !Cmod_inv by assumption.
  apply Rmult_le_compat; [apply Cmod_ge_0| | |].
  - apply Rmult_le_pos; apply Rlt_le, Rinv_0_lt_compat, Cmod_gt_0; assumption.
  - replace (z' - z)%C with (RtoC (a' - a) + Ci * RtoC (y' - y))%C by (apply c_eq; unfold z, z', Ci; cbn; ring). eapply Rle_trans; [apply Cmod_triangle|]. rewrite Cmod_mult, !Cmod_R. replace (Cmod Ci) with 1 by (symmetry; apply cmod_i). rewrite (Rabs_minus_sym a'), (Rabs_minus_sym y'). lra.
  - assert (M1 := fst_le z). assert (M2 := fst_le z'). cbn [fst z z'] in M1, M2. rewrite Rabs_right in M1, M2 by lra. apply Rmult_le_compat; [apply Rlt_le, Rinv_0_lt_compat, Cmod_gt_0; assumption|apply Rlt_le, Rinv_0_lt_compat, Cmod_gt_0; assumption|apply Rinv_le_contravar; assumption|apply Rinv_le_contravar; assumption].
Qed.
Lemma Kv_near x a x' a' : 0 < a -> 0 < a' -> Rabs (Kv x a - Kv x' a') <= sqrt PI * ((Rabs (x - x') + Rabs (a - a')) * / (PI * a * a')).
Proof.
  intros Pa Pa'. set (D := (Rabs (x - x') + Rabs (a - a')) * / (PI * a * a')). assert (P0 := PI_RGT_0). assert (PD : 0 <= D). { apply Rmult_le_pos; [assert (A := Rabs_pos (x - x')); assert (B := Rabs_pos (a - a')); lra|]. apply Rlt_le, Rinv_0_lt_compat. apply Rmult_lt_0_compat; [apply Rmult_lt_0_compat; assumption|assumption]. }
  assert (Cd : forall T, 0 <= T -> Rabs (conv x a T - conv x' a' T) <= sqrt PI * D).
  { intros T PT. unfold conv. set (f := fun u => exp (- u ^ 2) * (a / PI / ((x - u) ^ 2 + a ^ 2))). set (f' := fun u => exp (- u ^ 2) * (a' / PI / ((x' - u) ^ 2 + a' ^ 2))).
    assert (Ef : ex_RInt f (- T) T) by (apply rint, conv_cont, Pa). assert (Ef' : ex_RInt f' (- T) T) by (apply rint, conv_cont, Pa').
    assert (Em := RInt_minus (V := R_CompleteNormedModule) f f' (- T) T Ef Ef'). change (RInt (fun u => f u - f' u) (- T) T = RInt f (- T) T - RInt f' (- T) T) in Em. rewrite <- Em.
    assert (Cf : forall u : R, continuous (fun u => f u - f' u) u) by (intros u; apply (continuous_minus (K := R_AbsRing) (V := R_NormedModule) f f'); apply conv_cont; assumption).
    apply Rle_trans with (RInt (fun u => D * ga u) (- T) T).
    - apply Rabs_le. assert (Ex := rint _ (- T) T Cf). assert (Eg : ex_RInt (fun u => D * ga u) (- T) T) by (apply rint; intros; apply (continuous_scal_r D ga), ga_cont).
      assert (Pt : forall u, Rabs (f u - f' u) <= D * ga u).
      { intros u. unfold f, f'. rewrite <- Rmult_minus_distr_l, Rabs_mult, (Rabs_right (exp _)) by (apply Rle_ge, Rlt_le, exp_pos). unfold ga. replace (- u ^ 2) with (- (u * u)) by ring. rewrite Rmult_comm. apply Rmult_le_compat_r; [apply Rlt_le, exp_pos|].
        eapply Rle_trans; [apply lor_near; assumption|]. right. unfold D. f_equal. f_equal. f_equal. ring. }
      split.
      + assert (Eo := RInt_opp (V := R_CompleteNormedModule) (fun u => D * ga u) (- T) T Eg). change (RInt (fun u => - (D * ga u)) (- T) T = - RInt (fun u => D * ga u) (- T) T) in Eo. rewrite <- Eo.
        apply RInt_le; [lra|apply (ex_RInt_opp (V := R_CompleteNormedModule)); exact Eg|exact Ex|]. intros u _. specialize (Pt u). apply Rabs_le_between in Pt. lra.
      + apply RInt_le; [lra|exact Ex|exact Eg|]. intros u _. specialize (Pt u). apply Rabs_le_between in Pt. lra.
    - assert (E := RInt_scal (V := R_CompleteNormedModule) ga (- T) T D (ga_int _ _)). change (RInt (fun u => D * ga u) (- T) T = D * RInt ga (- T) T) in E. rewrite E, Rmult_comm. apply Rmult_le_compat_r; [exact PD|]. rewrite ga_sym. assert (GL := G_le T). lra. }
  apply Rnot_lt_le. intros L. set (e := (Rabs (Kv x a - Kv x' a') - sqrt PI * D) / 2). assert (Pe : 0 < e) by (unfold e; lra).
  destruct (proj2 (is_lim_spec _ _ _) (Kv_conv x a Pa) (mkposreal (e / 2) ltac:(lra))) as [M1 H1]. destruct (proj2 (is_lim_spec _ _ _) (Kv_conv x' a' Pa') (mkposreal (e / 2) ltac:(lra))) as [M2 H2].
  set (T := Rabs M1 + Rabs M2 + 1). assert (B1 := Rle_abs M1). assert (B2 := Rle_abs M2). assert (B3 := Rabs_pos M1). assert (B4 := Rabs_pos M2). specialize (H1 T ltac:(unfold T; lra)). specialize (H2 T ltac:(unfold T; lra)). specialize (Cd T ltac:(unfold T; lra)).
  simpl in H1, H2. rewrite Rabs_minus_sym in H1. assert (Tr : Rabs (Kv x a - Kv x' a') <= Rabs (Kv x a - conv x a T) + (Rabs (conv x a T - conv x' a' T) + Rabs (conv x' a' T - Kv x' a'))).
  { replace (Kv x a - Kv x' a') with ((Kv x a - conv x a T) + ((conv x a T - conv x' a' T) + (conv x' a' T - Kv x' a'))) by ring. eapply Rle_trans; [apply Rabs_triang|]. apply Rplus_le_compat_l. apply Rabs_triang. }
  unfold e in *. lra.
Qed.

(** * One mode *)
Lemma Kv_comp (X A : T3 -> R) t : (forall t, 0 < A t) -> continuous X t -> continuous A t -> continuous (fun t => Kv (X t) (A t)) t.
Proof.
  intros Pa Cx Ca. assert (P0 := PI_RGT_0). destruct sqrtpi as [[Ls Us] _]. apply filterlim_locally. intros [e Pe]. set (a0 := A t). assert (P := Pa t). fold a0 in P.
  set (K := sqrt PI * / (PI * a0 * (a0 / 2))). assert (PK : 0 < K). { apply Rmult_lt_0_compat; [lra|]. apply Rinv_0_lt_compat. apply Rmult_lt_0_compat; [apply Rmult_lt_0_compat; lra|lra]. }
  set (d := Rmin (a0 / 2) (e / (4 * K))). assert (Pd : 0 < d) by (apply Rmin_pos; [lra|apply Rdiv_lt_0_compat; lra]).
  assert (Hx := proj1 (filterlim_locally _ _) Cx (mkposreal d Pd)). assert (Ha := proj1 (filterlim_locally _ _) Ca (mkposreal d Pd)). generalize (filter_and _ _ Hx Ha). apply filter_imp. intros t' (B1 & B2).
  unfold ball in *. simpl in *. unfold AbsRing_ball, abs, minus, plus, opp in *. simpl in *. fold a0 in B2. fold a0. assert (D1 := Rmin_l (a0 / 2) (e / (4 * K))). assert (D2 := Rmin_r (a0 / 2) (e / (4 * K))). fold d in D1, D2.
  assert (N := Kv_near (X t') (A t') (X t) a0 (Pa t') P). change (Rabs (Kv (X t') (A t') - Kv (X t) a0) < e). assert (A2 := B2). apply Rabs_def2 in A2. assert (P' := Pa t').
  apply Rle_lt_trans with (1 := N). apply Rle_lt_trans with (2 * d * K).
  - replace (2 * d * K) with (sqrt PI * (2 * d * / (PI * a0 * (a0 / 2)))) by (unfold K; ring). apply Rmult_le_compat_l; [lra|]. apply Rmult_le_compat.
    + assert (Q1 := Rabs_pos (X t' - X t)). assert (Q2 := Rabs_pos (A t' - a0)). lra.
    + apply Rlt_le, Rinv_0_lt_compat. apply Rmult_lt_0_compat; [apply Rmult_lt_0_compat; lra|lra].
    + assert (Q1 : Rabs (X t' - X t) < d) by exact B1. assert (Q2 : Rabs (A t' - a0) < d) by exact B2. lra.
    + apply Rinv_le_contravar; [apply Rmult_lt_0_compat; [apply Rmult_lt_0_compat; lra|lra]|]. rewrite !Rmult_assoc. apply Rmult_le_compat_l; [lra|]. rewrite (Rmult_comm (A t')). apply Rmult_le_compat_l; lra.
  - apply Rle_lt_trans with (2 * (e / (4 * K)) * K); [apply Rmult_le_compat_r; lra|]. replace (2 * (e / (4 * K)) * K) with (e / 2) by (field; lra). lra.
Qed.
Lemma wide_near (f1 f2 f3 : v3 -> R) (a : axes) (p : meas) (F : factors) : cont3 f1 -> cont3 f2 -> cont3 f3 -> (forall q, 0 < f3 q) -> 0 < gamma_f F -> forall y x z,
  near3 (fun y x z => let q := shifted a p (fqxx F * x - fqxy F * y) (fqy F * y) (fqz F * z) in
    f1 q * Kv (gamma_f F * (f2 q - me_w p) + omega_x F * (fqxx F * x - fqxy F * y) + omega_y F * (fqy F * y)) (gamma_f F * f3 q)) y x z.
Proof.
  intros C1 C2 C3 P3 Pg y x z. apply near3_cont. cbv zeta. set (t0 := ((y, (x, z)) : T3)).
  assert (Cy : continuous (fun t : T3 => fst t) t0) by apply continuous_fst.
  assert (Cx : continuous (fun t : T3 => fst (snd t)) t0) by (apply (continuous_comp (fun t : T3 => snd t) (fun s => fst s)); [apply continuous_snd|apply continuous_fst]).
  assert (Cz : continuous (fun t : T3 => snd (snd t)) t0) by (apply (continuous_comp (fun t : T3 => snd t) (fun s => snd s)); [apply continuous_snd|apply continuous_snd]).
  assert (K : forall (k : R) (u : T3 -> R), continuous u t0 -> continuous (fun t => k * u t) t0).
  { intros k u C. apply (continuous_scal_r (K := R_AbsRing) (V := R_NormedModule) k u t0). exact C. }
  assert (Pl : forall u v : T3 -> R, continuous u t0 -> continuous v t0 -> continuous (fun t => u t + v t) t0) by (intros u v A B; apply (continuous_plus (K := R_AbsRing) (V := R_NormedModule) u v); assumption).
  assert (Mi : forall u v : T3 -> R, continuous u t0 -> continuous v t0 -> continuous (fun t => u t - v t) t0) by (intros u v A B; apply (continuous_minus (K := R_AbsRing) (V := R_NormedModule) u v); assumption).
  assert (Mu : forall u v : T3 -> R, continuous u t0 -> continuous v t0 -> continuous (fun t => u t * v t) t0) by (intros u v A B; apply (continuous_mult (K := R_AbsRing) u v); assumption).
  assert (Co : forall k : R, continuous (fun _ : T3 => k) t0) by (intros; apply continuous_const).
  assert (C1' : continuous (fun t : T3 => fqxx F * fst (snd t) - fqxy F * fst t) t0) by (apply Mi; apply K; assumption).
  assert (C2' : continuous (fun t : T3 => fqy F * fst t) t0) by (apply K; assumption). assert (C3' : continuous (fun t : T3 => fqz F * snd (snd t)) t0) by (apply K; assumption).
  assert (Qc : forall f, cont3 f -> continuous (fun t : T3 => f (shifted a p (fqxx F * fst (snd t) - fqxy F * fst t) (fqy F * fst t) (fqz F * snd (snd t)))) t0).
  { intros f Cf. assert (Qp : forall c0 c1 c2 c3 : R, continuous (fun t : T3 => c0 + ((fqxx F * fst (snd t) - fqxy F * fst t) * c1 + (fqy F * fst t * c2 + fqz F * snd (snd t) * c3))) t0).
    { intros. apply Pl; [apply Co|]. apply Pl; [apply Mu; [exact C1'|apply Co]|]. apply Pl; apply Mu; try apply Co; assumption. }
    exact (cont3_comp f _ _ _ t0 Cf (Qp (vx (me_q p)) (vx (ax_x a)) (vx (ax_y a)) (vx (ax_z a))) (Qp (vy (me_q p)) (vy (ax_x a)) (vy (ax_y a)) (vy (ax_z a))) (Qp (vz (me_q p)) (vz (ax_x a)) (vz (ax_y a)) (vz (ax_z a)))). }
  apply Mu; [apply Qc; exact C1|]. apply Kv_comp.
  - intros t. apply Rmult_lt_0_compat; [exact Pg|apply P3].
  - apply Pl; [apply Pl|]; apply K; try assumption. apply Mi; [apply Qc; exact C2|apply Co].
  - apply K, Qc. exact C3.
Qed.

Lemma wide_mode a p md b : proper (me_M p) -> wide md b ->
  exists l, folded_wide a p md l /\ comes (fun m0 m1 => trip (added_r a (me_M p) md p) m0 m1 / rest (me_M p) * step m0 ^ 2 * step m1) l (3 / 10 ^ 4 * b * sqrt (2 * PI) ^ 3 / rest (me_M p)).
Proof.
  intros P (Cd & Ci & Cw & Bi & Wl). set (m := me_M p) in *. assert (FF := fun tx ty tz w => fac_form m tx ty tz w P). cbv zeta in FF. destruct (fac_pos m P) as (Pg & Pz & Py & Px & Pxy & Pdz). assert (Pr := rest_pos m P). assert (K := fac_k m P).
  set (F := fac m) in *.
  set (G := fun y x z : R => let q := shifted a p (fqxx F * x - fqxy F * y) (fqy F * y) (fqz F * z) in
    inte md q * Kv (gamma_f F * (disp md q - me_w p) + omega_x F * (fqxx F * x - fqxy F * y) + omega_y F * (fqy F * y)) (gamma_f F * wl md q)).
  assert (Gc : forall y x z, near3 G y x z) by (apply (wide_near (inte md) (disp md) (wl md) a p F); assumption).
  assert (Pb : 0 <= b) by (eapply Rle_trans; [apply Rabs_pos|apply (Bi (V 0 0 0))]).
  assert (Gb : forall y x z, Rabs (G y x z) <= b).
  { intros y x z. unfold G. cbv zeta. rewrite Rabs_mult. set (q := shifted _ _ _ _ _). set (o := _ + _ + _). specialize (Bi q). assert (Kb := Kv_bound o (gamma_f F * wl md q) ltac:(apply Rmult_lt_0_compat; [exact Pg|apply Wl])). assert (A0 := Rabs_pos (inte md q)). assert (A1 := Rabs_pos (Kv o (gamma_f F * wl md q))). nra. }
  destruct (iterated3 G b Gc Gb (fqy F) (fqxx F) (fqz F) (fun t => - fqxy F * t) Py Px Pz) as (I1 & I2 & H1 & H2 & H3). set (A0 := RInt _ _ _) in H3.
  exists (A0 * (fqy F * fqxx F * fqz F)). split.
  - exists (fun d2 d1 d3 => G (d2 / fqy F) ((d1 - - fqxy F * (d2 / fqy F)) / fqxx F) (d3 / fqz F) * exp (- / 2 * ((d2 / fqy F) ^ 2 + ((d1 - - fqxy F * (d2 / fqy F)) / fqxx F) ^ 2 + (d3 / fqz F) ^ 2))), I1, I2. split; [|split; [exact H1|split; assumption]]. intros d2 d1 d3. cbv beta.
    set (ty := d2 / fqy F). set (tx := (d1 - - fqxy F * ty) / fqxx F). set (tz := d3 / fqz F). unfold G. cbv zeta. fold m.
    assert (E1 : fqxx F * tx - fqxy F * ty = d1) by (unfold tx; field; lra). assert (E2 : fqy F * ty = d2) by (unfold ty; field; lra). assert (E3 : fqz F * tz = d3) by (unfold tz; field; lra).
    assert (FF' : forall w, qf 4 m (off d1 d2 d3 w) = tx ^ 2 + ty ^ 2 + tz ^ 2 + 2 * (gamma_f F * w + omega_x F * d1 + omega_y F * d2) ^ 2) by (intros w; assert (T := FF tx ty tz w); rewrite E1, E2, E3 in T; exact T). rewrite E1, E2, E3. set (q := shifted a p d1 d2 d3). set (ex := exp (- / 2 * (ty ^ 2 + tx ^ 2 + tz ^ 2))).
    replace (inte md q * Kv (gamma_f F * (disp md q - me_w p) + omega_x F * d1 + omega_y F * d2) (gamma_f F * wl md q) * ex)
      with (inte md q * ex * Kv (gamma_f F * (disp md q - me_w p) + (omega_x F * d1 + omega_y F * d2)) (gamma_f F * wl md q)) by (rewrite Rplus_assoc; ring).
    assert (L := Kv_line (inte md q * ex) (disp md q - me_w p) (wl md q) (omega_x F * d1 + omega_y F * d2) (gamma_f F) (Wl q) Pg).
    eapply (is_RInt_gen_ext (V := R_NormedModule)); [|exact L]. apply filter_forall. intros [u v] d4 _. cbv beta.
    unfold away. fold (shifted a p d1 d2 d3). fold q. unfold lorentzian. rewrite FF'. unfold ex.
    replace (- / 2 * (tx ^ 2 + ty ^ 2 + tz ^ 2 + 2 * (gamma_f F * d4 + omega_x F * d1 + omega_y F * d2) ^ 2)) with (- / 2 * (ty ^ 2 + tx ^ 2 + tz ^ 2) + - (gamma_f F * d4 + (omega_x F * d1 + omega_y F * d2)) ^ 2) by field.
    rewrite exp_plus. replace (disp md q - (me_w p + d4)) with (disp md q - me_w p - d4) by ring. rring.
  - rewrite K. intros e Pe.
    destruct (conv3 (- (PI / 2)) (PI / 2) box (ang3 G) (ang3_uc G b Gc Gb) (e / 2 * rest m)) as [N HN]. { apply Rmult_lt_0_compat; lra. }
    set (c := 3 / 10 ^ 4 * b). assert (Pc : 0 <= c) by (unfold c; lra). destruct (norm3_lim (e / 2 * rest m / (c + 1))) as [N' HN']. { apply Rdiv_lt_0_compat; [apply Rmult_lt_0_compat; lra|lra]. }
    exists (N + N')%nat. intros m0 m1 L0 L1. specialize (HN (2 * m0 + 1)%nat (2 * m1 + 1)%nat ltac:(lia) ltac:(lia)). specialize (HN' m0 m1 ltac:(lia) ltac:(lia)).
    assert (TM := trip_mid (fun x y z => G y x z) m0 m1). change (ang3 (fun y x z => (fun x y z => G y x z) x y z)) with (ang3 G) in TM. set (q := mid _ _ _ _) in HN. change (Rabs (q - A0) <= e / 2 * rest m) in HN. change (trip (fun x y z => G y x z) m0 m1 * step m0 ^ 2 * step m1 = q) in TM.
    assert (Nr : forall x y z, Rabs (added_r a m md p x y z - G y x z) <= c).
    { intros x y z. unfold added_r, G. cbv zeta. fold F. set (dd := shifted _ _ _ _ _). set (o := _ + _ + _). rewrite (Rmult_comm (wl md dd)), <- Rmult_minus_distr_l, Rabs_mult. unfold c. rewrite Rmult_comm. apply Rmult_le_compat; try apply Rabs_pos; [apply Kv_acc; apply Rmult_lt_0_compat; [exact Pg|apply Wl]|apply Bi]. }
    assert (TN := trip_near _ _ c m0 m1 Nr). assert (S0 := step_pos m0). assert (S1 := step_pos m1).
    set (t := trip (added_r a m md p) m0 m1) in *. set (t' := trip (fun x y z => G y x z) m0 m1) in *.
    assert (En : ssum m0 ^ 2 * ssum m1 * (step m0 ^ 2 * step m1) = norm3 m0 m1). { unfold norm3, norm1. destruct m0; [lia|]. destruct m1; [lia|]. unfold one_point. ring. }
    assert (B1 : Rabs ((t - t') * (step m0 ^ 2 * step m1)) <= c * norm3 m0 m1). { rewrite Rabs_mult, (Rabs_right (step m0 ^ 2 * step m1)) by nra. rewrite <- En. replace (c * (ssum m0 ^ 2 * ssum m1 * (step m0 ^ 2 * step m1))) with (c * (ssum m0 ^ 2 * ssum m1) * (step m0 ^ 2 * step m1)) by ring. apply Rmult_le_compat_r; [nra|exact TN]. }
    assert (B2 : c * norm3 m0 m1 <= c * sqrt (2 * PI) ^ 3 + e / 2 * rest m).
    { apply Rabs_le_between in HN'. set (z := e / 2 * rest m / (c + 1)) in *. assert (Ez : z * (c + 1) = e / 2 * rest m) by (unfold z; field; lra). assert (0 <= z). { unfold z. apply Rmult_le_pos; [apply Rmult_le_pos; lra|left; apply Rinv_0_lt_compat; lra]. } rewrite <- Ez. nra. }
    replace (t / rest m * step m0 ^ 2 * step m1 - A0 * / rest m) with (((t - t') * (step m0 ^ 2 * step m1) + (q - A0)) * / rest m) by (rewrite <- TM; field; lra).
    rewrite Rabs_mult, (Rabs_right (/ rest m)) by (apply Rle_ge, Rlt_le, Rinv_0_lt_compat; exact Pr). fold c.
    apply (Rmult_le_reg_r (rest m)); [exact Pr|]. rewrite Rmult_assoc, Rinv_l, Rmult_1_r by lra. replace ((c * sqrt (2 * PI) ^ 3 / rest m + e) * rest m) with (c * sqrt (2 * PI) ^ 3 + e * rest m) by (field; lra).
    eapply Rle_trans; [apply Rabs_triang|]. lra.
Qed.
Lemma folded_wide_unique a p md l l' : folded_wide a p md l -> folded_wide a p md l' -> l' = l.
Proof.
  intros (I0 & I1 & I2 & A0 & A1 & A2 & A3) (J0 & J1 & J2 & B0 & B1 & B2 & B3).
  assert (E0 : forall d1 d2 d3, I0 d1 d2 d3 = J0 d1 d2 d3) by (intros; symmetry; eapply line_unique; [|apply A0|apply B0]; reflexivity).
  assert (E1 : forall d1 d2, I1 d1 d2 = J1 d1 d2) by (intros; symmetry; eapply line_unique; [|apply A1|apply B1]; apply E0).
  assert (E2 : forall d1, I2 d1 = J2 d1) by (intros; symmetry; eapply line_unique; [|apply A2|apply B2]; apply E1).
  eapply line_unique; [|exact A3|exact B3]. exact E2.
Qed.

(** * Sharp and wide modes together *)
(** [l] is the folded intensity of a mode bounded by [b] that has no width anywhere or some width everywhere. *)
Definition measured (a : axes) (p : meas) (md : mode) (l : R) : Prop := ((forall q, wl md q = 0) /\ folded_mode a p md l) \/ ((forall q, 0 < wl md q) /\ folded_wide a p md l).
Lemma measured_unique a p md l l' : measured a p md l -> measured a p md l' -> l' = l.
Proof.
  intros [[Z A]|[Z A]] [[Z' B]|[Z' B]]; [eapply folded_mode_unique; eassumption| | |eapply folded_wide_unique; eassumption]; exfalso; specialize (Z (V 0 0 0)); specialize (Z' (V 0 0 0)); lra.
Qed.
Lemma comes_le f l c c' : c <= c' -> comes f l c -> comes f l c'.
Proof. intros L H e Pe. destruct (H e Pe) as [N HN]. exists N. intros m0 m1 L0 L1. specialize (HN m0 m1 L0 L1). lra. Qed.
Lemma any_mode a p md b : proper (me_M p) -> plain md b \/ wide md b ->
  exists l, measured a p md l /\ comes (fun m0 m1 => trip (added_r a (me_M p) md p) m0 m1 / rest (me_M p) * step m0 ^ 2 * step m1) l (3 / 10 ^ 4 * b * sqrt (2 * PI) ^ 3 / rest (me_M p)).
Proof.
  intros P [Sm|Sm].
  - destruct (sma_mode a p md b P Sm) as [l [F H]]. exists l. split; [left; split; [apply Sm|exact F]|]. eapply comes_le; [|exact H]. destruct Sm as (_ & _ & Bi & _).
    assert (Pb : 0 <= b) by (eapply Rle_trans; [apply Rabs_pos|apply (Bi (V 0 0 0))]). assert (Pr := Rinv_0_lt_compat _ (rest_pos _ P)). unfold Rdiv at 1 3. apply Rmult_le_compat_r; [lra|]. apply Rmult_le_compat_r; [apply pow_le, sqrt_pos|]. lra.
  - destruct (wide_mode a p md b P Sm) as [l [F H]]. exists l. split; [right; split; [apply Sm|exact F]|exact H].
Qed.
Lemma any_modes a p sqw b (pf : nat -> nat -> R) (i : nat) : proper (me_M p) -> forall modes, (forall j, (j < modes)%nat -> plain (sqw j) (b j) \/ wide (sqw j) (b j)) ->
  exists l, (forall j, (j < modes)%nat -> measured a p (sqw j) (l j)) /\
    comes (fun m0 m1 => Rsum (map (fun j => trip (added_r a (me_M p) (sqw j) p) m0 m1 / rest (me_M p) * pf j i) (seq 0 modes)) * step m0 ^ 2 * step m1)
      (Rsum (map (fun j => l j * pf j i) (seq 0 modes))) (3 / 10 ^ 4 * sqrt (2 * PI) ^ 3 / rest (me_M p) * Rsum (map (fun j => b j * Rabs (pf j i)) (seq 0 modes))).
Proof.
  intros P. induction modes as [|n IH]; intros Sm.
  - exists (fun _ => 0). split; [intros; lia|]. simpl seq. simpl map. simpl Rsum. rewrite Rmult_0_r. apply (comes_ext (fun _ _ => 0)); [intros; ring|apply comes_const].
  - destruct IH as [l [F H]]; [intros; apply Sm; lia|]. destruct (any_mode a p (sqw n) (b n) P (Sm n ltac:(lia))) as [v [Fv Hv]].
    exists (fun j => if Nat.eqb j n then v else l j). split.
    + intros j Lj. destruct (Nat.eqb_spec j n); [subst; exact Fv|apply F; lia].
    + rewrite seq_S, !map_app, !Rsum_app. rewrite (Rsum_ext (fun j => (if Nat.eqb j n then v else l j) * pf j i) (fun j => l j * pf j i)).
      2:{ intros j I. apply in_seq in I. destruct (Nat.eqb_spec j n); [lia|reflexivity]. }
      simpl (map _ [_]). rewrite Nat.eqb_refl. simpl (Rsum [_]). rewrite !Rplus_0_r.
      apply (comes_scal _ v _ (pf n i)) in Hv. assert (S := comes_plus _ _ _ _ _ _ H Hv).
      match type of S with comes _ _ ?x => match goal with |- comes _ _ ?y => replace y with x by (unfold Rdiv; ring) end end.
      eapply comes_ext; [|exact S]. intros m0 m1 _ _. cbv beta. rewrite map_app, Rsum_app. simpl (map _ [_]). simpl (Rsum [_]). unfold Rdiv. ring.
Qed.

Theorem C81_converges : forall St (g : rng St) a modes sqw b pref nargout pf bg ps seed s i p,
  List.length ps <> 1%nat -> given pref nargout pf bg -> nth_error ps i = Some p -> proper (me_M p) -> (forall j, (j < modes)%nat -> plain (sqw j) (b j) \/ wide (sqw j) (b j)) ->
  exists l, (forall j, (j < modes)%nat -> measured a p (sqw j) (l j) /\ forall l', measured a p (sqw j) l' -> l' = l j) /\
  forall e, 0 < e -> exists N, forall m0 m1, (N < m0)%nat -> (N < m1)%nat ->
    exists r v, fst (convolution_SMA g a modes sqw pref nargout ps "fix" (AList [Z.of_nat m0; Z.of_nat m1]) seed s) = Ok r /\
      nth_error r i = Some (Some v) /\ Rabs (v - (me_R0 p * Rsum (map (fun j => l j * pf j i) (seq 0 modes)) + bg i)) <=
        3 / 10 ^ 4 * (sqrt (2 * PI) ^ 3 / sqrt (det_of (me_M p) / me_M p 3%nat 3%nat)) * Rsum (map (fun j => b j * Rabs (pf j i)) (seq 0 modes)) * Rabs (me_R0 p) + e.
Proof.
  intros St g a modes sqw b pref nargout pf bg ps seed s i p L A Ei P Sm.
  destruct (any_modes a p sqw b pf i P modes Sm) as [l [F H]]. exists l. split; [intros j Lj; split; [apply F; exact Lj|intros l'; apply measured_unique, F; exact Lj]|].
  fold (rest (me_M p)). apply (comes_scal _ _ _ (me_R0 p)) in H. assert (H2 := comes_plus _ _ _ _ _ _ H (comes_const (bg i))). clear H.
  intros e Pe. destruct (H2 e Pe) as [N HN]. exists N. intros m0 m1 L0 L1. rewrite (sma_fix g a modes sqw pref nargout ps pf bg _ m0 m1) by (auto using ints_ok).
  simpl fst. eexists. eexists. split; [reflexivity|]. rewrite mapi_nth, Ei. simpl option_map. rewrite point_ok; [split; [reflexivity|]|exact P|].
  2:{ intros j q Lj. destruct (Sm j Lj) as [(_ & _ & _ & W)|(_ & _ & _ & _ & W)]; [rewrite W; lra|apply Rlt_le, W]. }
  specialize (HN m0 m1 L0 L1). cbv beta in HN. destruct m0 as [|m0]; [lia|]. destruct m1 as [|m1]; [lia|]. unfold one_point. simpl (0 + i)%nat.
  set (X := Rsum (map (fun j => trip _ _ _ / _ * _) _)) in *. replace (X * step (S m0) ^ 2 * step (S m1) * 1 * 1 ^ 2 * me_R0 p + bg i - (me_R0 p * Rsum (map (fun j => l j * pf j i) (seq 0 modes)) + bg i))
    with (X * step (S m0) ^ 2 * step (S m1) * me_R0 p + bg i - (Rsum (map (fun j => l j * pf j i) (seq 0 modes)) * me_R0 p + bg i)) by ring.
  eapply Rle_trans; [exact HN|]. right. unfold Rdiv. ring.
Qed.
Print Assumptions C81_converges.
(** A mode whose width grows along the vertical axis. *)
Example C81_converges_case : wide (mkMode (disp ex_mode) (inte ex_mode) (fun q => 1 + vz q ^ 2)) 1.
Proof.
  destruct C76_case_mode as (A & B & D & _). split; [exact A|]. split; [exact B|]. split; [|split; [exact D|intros q; cbn; assert (Q := pow2_ge_0 (vz q)); simpl in Q; lra]].
  intros q e Pe. destruct (A (V (vz q) 0 0) e Pe) as [d [Pd H]]. exists d. split; [exact Pd|]. intros q' _ _ L. specialize (H (V (vz q') 0 0) L). cbn [vx vy vz disp ex_mode wl] in *.
  replace (1 + vz q' ^ 2 - (1 + vz q ^ 2)) with (vz q' ^ 2 + 3 - (vz q ^ 2 + 3)) by ring. apply H; rewrite Rminus_diag_eq, Rabs_R0 by reflexivity; lra.
Qed.

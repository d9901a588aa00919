(** C103: unit conversions in floating-point arithmetic. *)
From Coq Require Import Reals ZArith Lra Lia Psatz.
From Flocq Require Import Core Relative.
From Verif Require Import Base EnergyModel EnergyProps EnergyFloatModel.
Local Open Scope R_scope.

(** ** Errors on a logarithmic scale *)
Definition v : R := / (2 ^ 53 - 2).
Definition L : R := ln 10.
Lemma v_small : 0 < v < / 10 ^ 10.
Proof. unfold v. split; [apply Rinv_0_lt_compat; lra|]. apply Rinv_lt_contravar; nra. Qed.
Lemma L_big : 1 <= L.
Proof. unfold L. rewrite <- (ln_exp 1). destruct (Rle_lt_or_eq_dec (exp 1) 10) as [H|H]; [assert (A := exp_le_3); lra|left; apply ln_increasing; [apply exp_pos|exact H]|rewrite H; apply Rle_refl]. Qed.
Lemma ln_le x y : 0 < x -> x <= y -> ln x <= ln y.
Proof. intros P [H| ->]; [left; now apply ln_increasing|apply Rle_refl]. Qed.
Lemma ln_below x : 0 < x -> ln x <= x - 1.
Proof. intros P. assert (H := exp_ineq1_le (ln x)). rewrite exp_ln in H by exact P. lra. Qed.
Lemma ln_error d e : Rabs d <= e -> e < 1 -> Rabs (ln (1 + d)) <= e / (1 - e).
Proof.
  intros A B. assert (P : 0 < 1 + d) by (apply Rabs_le_inv in A; lra). assert (E0 : 0 <= e) by (apply Rle_trans with (2 := A), Rabs_pos).
  apply Rabs_le_inv in A. apply Rabs_le. split.
  - assert (H := ln_below (/ (1 + d)) (Rinv_0_lt_compat _ P)). rewrite ln_Rinv in H by exact P.
    assert (I : / (1 + d) - 1 <= e / (1 - e)). { replace (e / (1 - e)) with (/ (1 - e) - 1) by (field; lra). apply Rplus_le_compat_r, Rinv_le_contravar; lra. } lra.
  - apply Rle_trans with (1 + d - 1); [apply ln_below, P|]. apply Rle_trans with e; [lra|]. apply Rle_trans with (e * 1); [lra|]. apply Rmult_le_compat_l; [exact E0|].
    rewrite <- Rinv_1 at 1. apply Rinv_le_contravar; lra.
Qed.
Lemma of_ln x y t : 0 < x -> 0 < y -> Rabs (ln x - ln y) <= t -> t < 1 -> Rabs (x - y) <= t / (1 - t) * y.
Proof.
  intros X Y H T. assert (E : x = y * exp (ln x - ln y)) by (unfold Rminus; rewrite exp_plus, exp_Ropp, !exp_ln by assumption; field; lra).
  set (d := ln x - ln y) in *. assert (H' := H). apply Rabs_le_inv in H. assert (A1 := exp_ineq1_le d). assert (A2 := exp_ineq1_le (- d)). rewrite exp_Ropp in A2.
  assert (P := exp_pos d). assert (t0 : 0 <= t) by lra. assert (B : exp d <= / (1 - t)). { rewrite <- (Rinv_involutive (exp d)) by lra. apply Rinv_le_contravar; lra. }
  assert (I : t / (1 - t) = / (1 - t) - 1) by (field; lra). assert (J : t <= t / (1 - t)). { apply Rle_trans with (t * 1); [lra|]. apply Rmult_le_compat_l; [exact t0|]. rewrite <- Rinv_1 at 1. apply Rinv_le_contravar; lra. }
  rewrite E. replace (y * exp d - y) with ((exp d - 1) * y) by ring. rewrite Rabs_mult, (Rabs_right y) by lra. apply Rmult_le_compat_r; [lra|]. apply Rabs_le. lra.
Qed.
Lemma ln_tens n : ln (10 ^ n) = INR n * L.
Proof. induction n as [|n IH]; [cbn; rewrite ln_1; ring|]. rewrite S_INR. cbn [pow]. rewrite ln_mult; [|lra|apply pow_lt; lra]. rewrite IH. unfold L. ring. Qed.
Lemma decades x n : 0 < x -> / 10 ^ n <= x <= 10 ^ n -> Rabs (ln x) <= INR n * L.
Proof.
  intros P [A B]. assert (T : 0 < 10 ^ n) by (apply pow_lt; lra). apply Rabs_le. rewrite <- ln_tens. split; [rewrite <- ln_Rinv by exact T; apply ln_le; [apply Rinv_0_lt_compat, T|exact A]|apply ln_le; assumption].
Qed.
Lemma in_decades x n : 0 < x -> Rabs (ln x) <= INR n * L -> / 10 ^ n <= x <= 10 ^ n.
Proof.
  intros P H. assert (T : 0 < 10 ^ n) by (apply pow_lt; lra). apply Rabs_le_inv in H. rewrite <- ln_tens in H. split.
  - destruct (Rle_lt_dec (/ 10 ^ n) x) as [X|X]; [exact X|]. apply ln_increasing in X; [|exact P]. rewrite ln_Rinv in X by exact T. lra.
  - destruct (Rle_lt_dec x (10 ^ n)) as [X|X]; [exact X|]. apply ln_increasing in X; [|exact T]. lra.
Qed.
Lemma range x : 0 < x -> Rabs (ln x) <= 307 * L -> bpow radix2 (-1022) <= x /\ x * 2 <= bpow radix2 1024.
Proof.
  intros P H. replace 307 with (INR 307) in H by (rewrite INR_IZR_INZ; reflexivity). apply (in_decades x 307 P) in H. destruct H as [A B].
  assert (C : 10 ^ 307 <= bpow radix2 1022). { rewrite (pow_IZR 10 307). cbn [bpow]. apply IZR_le. vm_compute. discriminate. }
  assert (D : bpow radix2 1024 = bpow radix2 1022 * 4) by (change 1024%Z with (1022 + 2)%Z; rewrite bpow_plus; reflexivity).
  assert (Tt : 0 < 10 ^ 307) by (apply pow_lt; lra). split.
  - apply Rle_trans with (2 := A). change (-1022)%Z with (Z.opp 1022). rewrite bpow_opp. apply Rinv_le_contravar; assumption.
  - rewrite D. lra.
Qed.
Lemma rnd_error x : 0 < x -> Rabs (ln x) <= 307 * L -> 0 < rnd x /\ Rabs (ln (rnd x) - ln x) <= v /\ op1 x = Some (rnd x).
Proof.
  intros P H. destruct (range x P H) as [A B]. assert (E := relative_error_N_FLT radix2 (-1074) 53 eq_refl (fun z => negb (Z.even z)) x).
  rewrite (Rabs_right x) in E by lra. specialize (E A). fold (rnd x) in E. assert (N : bpow radix2 (Z.opp 53 + 1) = / 2 ^ 52) by (change (Z.opp 53 + 1)%Z with (Z.opp 52); rewrite bpow_opp; f_equal; cbn [bpow]; rewrite (pow_IZR 2 52); reflexivity). change (Z.neg 53) with (Z.opp 53) in E; rewrite N in E. clear N.
  set (d := (rnd x - x) / x). assert (Ed : rnd x = x * (1 + d)) by (unfold d; field; lra).
  assert (D : Rabs d <= / 2 ^ 53). { unfold d, Rdiv. rewrite Rabs_mult, Rabs_Rinv, (Rabs_right x) by lra. apply Rmult_le_reg_r with x; [exact P|]. rewrite Rmult_assoc, Rinv_l, Rmult_1_r by lra. replace (/ 2 ^ 53) with (/ 2 * / 2 ^ 52) by (cbn; field). exact E. }
  assert (S : / 2 ^ 53 < 1 / 2) by (apply Rle_lt_trans with (/ 2 ^ 2); [apply Rinv_le_contravar; lra|lra]).
  assert (Dd := D). apply Rabs_le_inv in Dd. assert (Pd : 0 < 1 + d) by lra. assert (Pr : 0 < rnd x) by (rewrite Ed; apply Rmult_lt_0_compat; assumption).
  split; [exact Pr|]. split.
  - rewrite Ed, ln_mult by assumption. replace (ln x + ln (1 + d) - ln x) with (ln (1 + d)) by ring. apply Rle_trans with (1 := ln_error d _ D ltac:(lra)).
    unfold v. replace (/ 2 ^ 53 / (1 - / 2 ^ 53)) with (/ (2 ^ 53 - 1)) by (field; lra). apply Rinv_le_contravar; lra.
  - unfold op1. destruct (Rlt_dec (Rabs (rnd x)) (bpow radix2 1024)) as [|N]; [reflexivity|]. exfalso. apply N. rewrite Rabs_right by lra. rewrite Ed. assert (x * (1 + d) < x * 2) by (apply Rmult_lt_compat_l; lra). lra.
Qed.

(** [o] is a number that is [y] up to [k] rounding errors, and [y] is within [b] decades of 1. *)
Definition comp (k b : R) (o : option R) (y : R) : Prop := exists x, o = Some x /\ 0 < x /\ 0 < y /\ Rabs (ln x - ln y) <= k * v /\ Rabs (ln y) <= b * L.
Ltac abs := repeat match goal with H : Rabs _ <= _ |- _ => apply Rabs_le_inv in H end; try apply Rabs_le.
Ltac small := assert (V := v_small); assert (VL := L_big).
Lemma comp_op k b x y : 0 < x -> 0 < y -> Rabs (ln x - ln y) <= k * v -> Rabs (ln y) <= b * L -> b <= 306 -> k <= 1000 -> comp (k + 1) b (op1 x) y.
Proof.
  intros X Y K B b3 k3. small. assert (A : Rabs (ln x) <= 307 * L) by (abs; assert (k * v <= 1000 * v) by (apply Rmult_le_compat_r; lra); assert (b * L <= 306 * L) by (apply Rmult_le_compat_r; lra); lra).
  destruct (rnd_error x X A) as (P & E & O). exists (rnd x). split; [exact O|]. split; [exact P|]. split; [exact Y|]. split; [abs; lra|exact B].
Qed.
Lemma comp_mul k b o y k' b' o' y' : comp k b o y -> comp k' b' o' y' -> b + b' <= 306 -> k + k' <= 1000 -> comp (k + k' + 1) (b + b') (omul o o') (y * y').
Proof.
  intros (x & -> & X & Y & K & B) (x' & -> & X' & Y' & K' & B') b3 k3. cbn [omul]. apply comp_op; auto using Rmult_lt_0_compat; rewrite ?ln_mult by assumption; abs; lra.
Qed.
Lemma comp_div k b o y k' b' o' y' : comp k b o y -> comp k' b' o' y' -> b + b' <= 306 -> k + k' <= 1000 -> comp (k + k' + 1) (b + b') (odiv o o') (y / y').
Proof.
  intros (x & -> & X & Y & K & B) (x' & -> & X' & Y' & K' & B') b3 k3. cbn [odiv]. destruct (Req_EM_T x' 0); [lra|]. unfold Rdiv.
  assert (I := Rinv_0_lt_compat _ X'). assert (I' := Rinv_0_lt_compat _ Y'). apply comp_op; auto using Rmult_lt_0_compat; rewrite ?ln_mult, ?ln_Rinv by assumption; abs; lra.
Qed.
Lemma ln_sqrt x : 0 < x -> ln (sqrt x) = ln x / 2.
Proof. intros P. assert (S := sqrt_lt_R0 x P). assert (E : ln x = ln (sqrt x) + ln (sqrt x)) by (rewrite <- ln_mult, sqrt_sqrt by lra; reflexivity). lra. Qed.
Lemma comp_sqrt k b o y : comp k b o y -> b / 2 <= 306 -> k / 2 <= 1000 -> comp (k / 2 + 1) (b / 2) (osqrt o) (sqrt y).
Proof. intros (x & -> & X & Y & K & B) b3 k3. cbn [osqrt]. destruct (Rle_lt_dec 0 x); [|lra]. apply comp_op; auto using sqrt_lt_R0; rewrite ?ln_sqrt by assumption; abs; lra. Qed.
Lemma comp_const b x : 0 < x -> Rabs (ln x) <= b * L -> comp 0 b (Some x) x.
Proof. intros P B. exists x. split; [reflexivity|]. split; [exact P|]. split; [exact P|]. split; [|exact B]. rewrite Rminus_diag_eq, Rabs_R0 by reflexivity. lra. Qed.
Lemma comp_weak k b o y k' b' : comp k b o y -> k <= k' -> b <= b' -> comp k' b' o y.
Proof.
  intros (x & -> & X & Y & K & B) H H'. small. exists x. split; [reflexivity|]. split; [exact X|]. split; [exact Y|]. split; [apply Rle_trans with (1 := K), Rmult_le_compat_r; lra|apply Rle_trans with (1 := B), Rmult_le_compat_r; lra].
Qed.

(** A squaring with at most one unit in the last place of error, as far as the square is neither too small nor too large. *)
Definition squares (sq : R -> option R) : Prop :=
  forall x, 0 < x -> bpow radix2 (-1022) <= x ^ 2 -> x ^ 2 * 2 <= bpow radix2 1024 -> exists y, sq x = Some y /\ Rabs (y - x ^ 2) <= / 2 ^ 52 * x ^ 2.
Lemma comp_sq sq k b o y : squares sq -> comp k b o y -> 2 * b <= 306 -> 2 * k <= 1000 -> comp (2 * k + 2) (2 * b) (osq sq o) (y ^ 2).
Proof.
  intros Q (x & -> & X & Y & K & B) b3 k3. small. cbn [osq]. assert (X2 : 0 < x ^ 2) by (apply pow_lt, X). assert (Y2 : 0 < y ^ 2) by (apply pow_lt, Y).
  assert (LX : ln (x ^ 2) = 2 * ln x) by (cbn [pow]; rewrite Rmult_1_r, ln_mult by assumption; ring). assert (LY : ln (y ^ 2) = 2 * ln y) by (cbn [pow]; rewrite Rmult_1_r, ln_mult by assumption; ring).
  assert (A : Rabs (ln (x ^ 2)) <= 307 * L). { rewrite LX. abs. assert (2 * k * v <= 1000 * v) by (apply Rmult_le_compat_r; lra). assert (2 * b * L <= 306 * L) by (apply Rmult_le_compat_r; lra). lra. }
  destruct (range _ X2 A) as [R1 R2]. destruct (Q x X R1 R2) as (z & E & D). set (d := (z - x ^ 2) / x ^ 2). assert (Ez : z = x ^ 2 * (1 + d)) by (unfold d; field; lra).
  assert (Hd : Rabs d <= / 2 ^ 52). { unfold d, Rdiv. rewrite Rabs_mult, Rabs_Rinv, (Rabs_right (x ^ 2)) by lra. apply Rmult_le_reg_r with (x ^ 2); [exact X2|]. rewrite Rmult_assoc, Rinv_l, Rmult_1_r by lra. exact D. }
  assert (S : / 2 ^ 52 < 1 / 2) by (apply Rle_lt_trans with (/ 2 ^ 2); [apply Rinv_le_contravar; lra|lra]). assert (Hd' := Hd). apply Rabs_le_inv in Hd'. assert (Pd : 0 < 1 + d) by lra.
  exists z. split; [exact E|]. split; [rewrite Ez; apply Rmult_lt_0_compat; assumption|]. split; [exact Y2|]. assert (M := ln_error d _ Hd ltac:(lra)).
  assert (W : / 2 ^ 52 / (1 - / 2 ^ 52) = 2 * v) by (unfold v; field; lra). rewrite W in M. rewrite Ez, ln_mult, LX, LY by assumption. split; abs; lra.
Qed.

(** ** The conversions *)
(** The constants, in SI units and meV, to within their decade. *)
Definition decade (n : nat) (x : R) : Prop := / 10 ^ S n <= x <= / 10 ^ n.
Definition usual (c : consts) : Prop := decade 33 (c_h c) /\ decade 33 (c_hbar c) /\ decade 22 (c_k c) /\ decade 26 (c_m c) /\ 10 ^ 21 <= c_J c <= 10 ^ 22.
Lemma decade_comp n x : decade n x -> 0 < x /\ comp 0 (INR (S n)) (Some x) x.
Proof.
  intros [A B]. assert (T : 0 < 10 ^ S n) by (apply pow_lt; lra). assert (P : 0 < x) by (apply Rlt_le_trans with (2 := A), Rinv_0_lt_compat, T). split; [exact P|]. apply comp_const; [exact P|]. apply decades; [exact P|]. split; [exact A|].
  apply Rle_trans with (1 := B). apply Rle_trans with 1; [rewrite <- Rinv_1; apply Rinv_le_contravar; [lra|apply pow_R1_Rle; lra]|apply pow_R1_Rle; lra].
Qed.
Lemma within_comp n x : / 10 ^ n <= x <= 10 ^ n -> 0 < x /\ comp 0 (INR n) (Some x) x.
Proof. intros H. assert (T : 0 < 10 ^ n) by (apply pow_lt; lra). assert (P : 0 < x) by (apply Rlt_le_trans with (2 := proj1 H), Rinv_0_lt_compat, T). split; [exact P|]. apply comp_const; [exact P|]. apply decades; assumption. Qed.
Lemma two_comp : comp 0 1 (Some 2) 2.
Proof. replace 1 with (INR 1) at 1 by reflexivity. apply within_comp. cbn. lra. Qed.
Lemma one_comp : comp 0 0 (Some 1) 1.
Proof. apply comp_const; [lra|]. rewrite ln_1, Rabs_R0. small. lra. Qed.
Lemma pi_comp : comp 1 1 np_pi PI.
Proof.
  assert (P := PI_RGT_0). assert (Q := PI_4). assert (Lp : Rabs (ln PI) <= 1 * L).
  { assert (B := PI2_1). replace 1 with (INR 1) by reflexivity. apply decades; [exact P|]. cbn. lra. }
  replace 1 with (0 + 1) at 1 by ring. unfold np_pi. apply comp_op; try lra. rewrite Rminus_diag_eq, Rabs_R0 by reflexivity. lra.
Qed.
Lemma tens_comp n : comp 0 (INR n) (Some (10 ^ n)) (10 ^ n).
Proof. apply within_comp. assert (T : 1 <= 10 ^ n) by (apply pow_R1_Rle; lra). split; [|apply Rle_refl]. apply Rle_trans with (2 := T). rewrite <- Rinv_1. apply Rinv_le_contravar; lra. Qed.
Lemma J_comp c : 10 ^ 21 <= c_J c <= 10 ^ 22 -> 0 < c_J c /\ comp 0 (INR 22) (Some (c_J c)) (c_J c).
Proof.
  intros UJ. apply within_comp. split; [|apply UJ]. apply Rle_trans with 1; [rewrite <- Rinv_1; apply Rinv_le_contravar; [lra|apply pow_R1_Rle; lra]|]. apply Rle_trans with (2 := proj1 UJ). apply pow_R1_Rle; lra.
Qed.
Lemma rnd_pow e : (-1022 <= e)%Z -> rnd (bpow radix2 e) = bpow radix2 e.
Proof. intros H. apply round_generic; [apply valid_rnd_N|]. apply generic_format_bpow. unfold FLT_exp. lia. Qed.
Lemma rnd_le x y : x <= y -> rnd x <= rnd y.
Proof. apply round_le; [apply FLT_exp_valid; reflexivity|apply valid_rnd_N]. Qed.
Lemma near_equal E' E : Rabs (E' - E) <= / 2 ^ 20 -> Rabs (rnd (E' - E)) < rnd (1 / 10 ^ 6).
Proof.
  intros H. assert (P : bpow radix2 (-20) = / 2 ^ 20) by (change (-20)%Z with (Z.opp 20); rewrite bpow_opp; f_equal; cbn [bpow]; rewrite (pow_IZR 2 20); reflexivity).
  assert (A : Rabs (rnd (E' - E)) <= bpow radix2 (-20)). { rewrite <- P in H. apply Rabs_le_inv in H. apply Rabs_le. assert (R1 := rnd_pow (-20) ltac:(lia)). split; [|rewrite <- R1; apply rnd_le; lra].
    assert (N : rnd (- bpow radix2 (-20)) = - bpow radix2 (-20)) by (rewrite <- R1 at 2; apply round_NE_opp). rewrite <- N. apply rnd_le; lra. }
  apply Rle_lt_trans with (1 := A). set (z := F2R (Float radix2 1025 (-30))).
  assert (Z : z = 1025 * / 2 ^ 30) by (unfold z, F2R; cbn [Fnum Fexp]; f_equal; change (-30)%Z with (Z.opp 30); rewrite bpow_opp; f_equal; cbn [bpow]; rewrite (pow_IZR 2 30); reflexivity).
  assert (Fz : rnd z = z). { apply round_generic; [apply valid_rnd_N|]. apply generic_format_FLT. exists (Float radix2 1025 (-30)); [reflexivity| |]; cbn; lia. }
  apply Rlt_le_trans with z; [rewrite P, Z; lra|]. rewrite <- Fz. apply rnd_le. rewrite Z. lra.
Qed.
Lemma Ok_inj {A} (x y : A) : Ok x = Ok y -> x = y.
Proof. congruence. Qed.
Ltac nums := rewrite ?INR_IZR_INZ in *; cbn [Z.of_nat Pos.of_succ_nat Pos.succ] in *.
Ltac chain H :=
  lazymatch goal with
  | |- comp _ _ (omul _ _) _ => eapply comp_mul; [chain H|chain H|lra|lra]
  | |- comp _ _ (odiv _ _) _ => eapply comp_div; [chain H|chain H|lra|lra]
  | |- comp _ _ (osqrt _) _ => eapply comp_sqrt; [chain H|lra|lra]
  | |- comp _ _ (osq _ _) _ => eapply comp_sq; [exact H|chain H|lra|lra]
  | |- comp _ _ np_pi _ => exact pi_comp
  | |- comp _ _ (Some 2) _ => exact two_comp
  | |- comp _ _ (Some 1) _ => exact one_comp
  | |- _ => eassumption
  end.
(** From a quantity to the energy. *)
Lemma energy_chain sq c q k b o y : squares sq -> usual c -> comp k b o y -> 0 <= k <= 8 -> 0 <= b <= 77 ->
  exists E, energy_of c q y = Ok E /\ comp (2 * k + 16) (2 * b + 142) (energy_fl sq c q o) E.
Proof.
  intros S (Uh & Ub & Uk & Um & UJ) Y K B. destruct (decade_comp _ _ Uh) as [Ph Ch]. destruct (decade_comp _ _ Ub) as [Pb Cb]. destruct (decade_comp _ _ Uk) as [Pk Ck]. destruct (decade_comp _ _ Um) as [Pm Cm].
  destruct (J_comp c UJ) as [PJ CJ]. assert (T10 := tens_comp 10). assert (T12 := tens_comp 12). nums. assert (Py : 0 < y) by (destruct Y as (x & _ & _ & P & _); exact P).
  destruct q; cbn [energy_of energy_fl]; try (destruct (Req_EM_T y 0); [lra|]); eexists; (split; [reflexivity|]); (eapply comp_weak; [chain S|lra|lra]).
Qed.
(** From the energy to a quantity. *)
Lemma get_chain sq c q k b o E : squares sq -> usual c -> comp k b o E -> 0 <= k <= 16 -> 0 <= b <= 166 ->
  exists y, get (values_of c E) q = Fin y /\ comp (k + 8) (b + 74) (get_fl sq c q o) y.
Proof.
  intros S (Uh & Ub & Uk & Um & UJ) Y K B. destruct (decade_comp _ _ Uh) as [Ph Ch]. destruct (decade_comp _ _ Ub) as [Pb Cb]. destruct (decade_comp _ _ Uk) as [Pk Ck]. destruct (decade_comp _ _ Um) as [Pm Cm].
  destruct (J_comp c UJ) as [PJ CJ]. assert (T10 := tens_comp 10). assert (T12 := tens_comp 12). nums. assert (PE : 0 < E) by (destruct Y as (x & _ & _ & P & _); exact P).
  assert (W : exists w, wavelength_of c E = Fin w /\ comp (k / 2 + 5) (b / 2 + 69) (wavelength_fl sq c o) w).
  { unfold wavelength_of, fsqrt. assert (Wp : 0 < c_h c ^ 2 / (2 * c_m c * E / c_J c)) by (repeat first [assumption | lra | apply Rdiv_lt_0_compat | apply Rmult_lt_0_compat | apply pow_lt]).
    destruct (Rle_lt_dec 0 _); [|lra]. cbn [fmap]. eexists. split; [reflexivity|]. unfold wavelength_fl. eapply comp_weak; [chain S|lra|lra]. }
  destruct W as (w & W & Cw). destruct q; unfold values_of, get; cbn [get_fl en wavelen wavevec vel EnergyModel.temp freq]; try (destruct (Req_EM_T E 0); [lra|]).
  - eexists. split; [reflexivity|]. eapply comp_weak; [exact Y|lra|lra].
  - exists w. split; [exact W|]. eapply comp_weak; [exact Cw|lra|lra].
  - unfold fsqrt. assert (Vp : 0 < 2 * E / c_J c / c_m c) by (repeat first [assumption | lra | apply Rdiv_lt_0_compat | apply Rmult_lt_0_compat]).
    destruct (Rle_lt_dec 0 _); [|lra]. eexists. split; [reflexivity|]. eapply comp_weak; [chain S|lra|lra].
  - unfold wavevector_of. rewrite W. cbn [fmap]. eexists. split; [reflexivity|]. eapply comp_weak; [chain S|lra|lra].
  - eexists. split; [reflexivity|]. eapply comp_weak; [chain S|lra|lra].
  - eexists. split; [reflexivity|]. eapply comp_weak; [chain S|lra|lra].
Qed.
Lemma get_chain_low sq c q k b o E : q <> QFrequency -> squares sq -> usual c -> comp k b o E -> 0 <= k <= 0 -> 0 <= b <= 12 ->
  exists y, get (values_of c E) q = Fin y /\ comp 8 77 (get_fl sq c q o) y.
Proof.
  intros Nq S (Uh & Ub & Uk & Um & UJ) Y K B. destruct (decade_comp _ _ Uh) as [Ph Ch]. destruct (decade_comp _ _ Ub) as [Pb Cb]. destruct (decade_comp _ _ Uk) as [Pk Ck]. destruct (decade_comp _ _ Um) as [Pm Cm].
  destruct (J_comp c UJ) as [PJ CJ]. assert (T10 := tens_comp 10). assert (T12 := tens_comp 12). nums. assert (PE : 0 < E) by (destruct Y as (x & _ & _ & P & _); exact P).
  assert (W : exists w, wavelength_of c E = Fin w /\ comp (k / 2 + 5) (b / 2 + 69) (wavelength_fl sq c o) w).
  { unfold wavelength_of, fsqrt. assert (Wp : 0 < c_h c ^ 2 / (2 * c_m c * E / c_J c)) by (repeat first [assumption | lra | apply Rdiv_lt_0_compat | apply Rmult_lt_0_compat | apply pow_lt]).
    destruct (Rle_lt_dec 0 _); [|lra]. cbn [fmap]. eexists. split; [reflexivity|]. unfold wavelength_fl. eapply comp_weak; [chain S|lra|lra]. }
  destruct W as (w & W & Cw). destruct q; unfold values_of, get; cbn [get_fl en wavelen wavevec vel EnergyModel.temp freq]; try (destruct (Req_EM_T E 0); [lra|]).
  - eexists. split; [reflexivity|]. eapply comp_weak; [exact Y|lra|lra].
  - exists w. split; [exact W|]. eapply comp_weak; [exact Cw|lra|lra].
  - unfold fsqrt. assert (Vp : 0 < 2 * E / c_J c / c_m c) by (repeat first [assumption | lra | apply Rdiv_lt_0_compat | apply Rmult_lt_0_compat]).
    destruct (Rle_lt_dec 0 _); [|lra]. eexists. split; [reflexivity|]. eapply comp_weak; [chain S|lra|lra].
  - unfold wavevector_of. rewrite W. cbn [fmap]. eexists. split; [reflexivity|]. eapply comp_weak; [chain S|lra|lra].
  - eexists. split; [reflexivity|]. eapply comp_weak; [chain S|lra|lra].
  - congruence.
Qed.
Lemma comp_close k b o y n : comp k b o y -> 0 <= k -> k * 2 ^ 53 <= n * (2 ^ 53 - 2 - k) -> k < 1000 -> exists z, o = Some z /\ Rabs (z - y) <= n * / 2 ^ 53 * y.
Proof.
  intros (z & -> & Z & Y & K & _) k0 N k3. exists z. split; [reflexivity|]. small. assert (T : k * v < 1) by (assert (k * v <= 1000 * v) by (apply Rmult_le_compat_r; lra); lra).
  apply Rle_trans with (1 := of_ln z y (k * v) Z Y K T). apply Rmult_le_compat_r; [lra|]. unfold v. replace (k * / (2 ^ 53 - 2) / (1 - k * / (2 ^ 53 - 2))) with (k / (2 ^ 53 - 2 - k)) by (field; lra).
  apply Rmult_le_reg_r with (2 ^ 53 - 2 - k); [lra|]. unfold Rdiv. rewrite Rmult_assoc, Rinv_l, Rmult_1_r by lra. apply Rmult_le_reg_r with (2 ^ 53); [lra|].
  replace (n * / 2 ^ 53 * (2 ^ 53 - 2 - k) * 2 ^ 53) with (n * (2 ^ 53 - 2 - k)) by (field; lra). exact N.
Qed.

(** Whatever quantity a beam is made from, what is read of each quantity is the value of the exact formulas up to a relative error of 25 roundings. *)
Theorem C103_conversions : forall sq c q q' x, squares sq -> usual c -> / 10 ^ 12 <= x <= 10 ^ 12 ->
  exists o y z, build c q x = Ok o /\ get o q' = Fin y /\ 0 < y /\ get_fl sq c q' (energy_fl sq c q (Some x)) = Some z /\ Rabs (z - y) <= 25 * / 2 ^ 53 * y.
Proof.
  intros sq c q q' x S U X. destruct (within_comp 12 x X) as [Px Cx]. nums. destruct (energy_chain sq c q _ _ _ _ S U Cx ltac:(lra) ltac:(lra)) as (E & HE & CE).
  destruct (get_chain sq c q' _ _ _ _ S U CE ltac:(lra) ltac:(lra)) as (y & Hy & Cy). destruct (comp_close _ _ _ _ 25 Cy ltac:(lra) ltac:(lra) ltac:(lra)) as (z & Hz & Bz).
  exists (values_of c E), y, z. unfold build. rewrite HE. split; [reflexivity|]. split; [exact Hy|]. split; [destruct Cy as (? & _ & _ & P & _); exact P|]. auto.
Qed.
Print Assumptions C103_conversions.
Lemma back c E q : 0 < c_h c -> 0 < c_hbar c -> 0 < c_k c -> 0 < c_m c -> 0 < c_J c -> 0 < E -> exists y, get (values_of c E) q = Fin y /\ 0 < y /\ energy_of c q y = Ok E.
Proof.
  intros Ph Pb Pk Pm PJ PE. assert (Pi := PI_RGT_0). set (c1 := mkC (match q with QFrequency => c_hbar c * (2 * PI) | _ => c_h c end) (match q with QFrequency => c_hbar c | _ => c_h c / (2 * PI) end) (c_k c) (c_m c) (c_J c)).
  assert (P : physical c1). { unfold physical, c1; cbn [c_h c_k c_m c_J c_hbar]. destruct q; repeat split; try assumption; try (apply Rmult_lt_0_compat; lra); field; lra. }
  destruct (get_back c1 E q P PE) as (y & G & Y & B). exists y. destruct q; auto.
Qed.
(** The quantity a beam is made from is read back to within 25 roundings. *)
Theorem C103_read_back : forall sq c q x, squares sq -> usual c -> / 10 ^ 12 <= x <= 10 ^ 12 ->
  exists z, get_fl sq c q (energy_fl sq c q (Some x)) = Some z /\ Rabs (z - x) <= 25 * / 2 ^ 53 * x.
Proof.
  intros sq c q x S U X. destruct (C103_conversions sq c q q x S U X) as (o & y & z & B & G & Py & Hz & D). exists z. split; [exact Hz|].
  assert (y = x); [|subst; exact D]. destruct U as (Uh & Ub & Uk & Um & UJ). destruct (decade_comp _ _ Uh) as [Ph _]. destruct (decade_comp _ _ Ub) as [Pb _]. destruct (decade_comp _ _ Uk) as [Pk _]. destruct (decade_comp _ _ Um) as [Pm _]. destruct (J_comp c UJ) as [PJ _].
  destruct (within_comp 12 x X) as [Px _]. assert (Pi := PI_RGT_0).
  set (c1 := mkC (match q with QFrequency => c_hbar c * (2 * PI) | _ => c_h c end) (match q with QFrequency => c_hbar c | _ => c_h c / (2 * PI) end) (c_k c) (c_m c) (c_J c)).
  assert (P : physical c1). { unfold physical, c1; cbn [c_h c_k c_m c_J c_hbar]. destruct q; repeat split; try assumption; try (apply Rmult_lt_0_compat; lra); field; lra. }
  destruct (C17_conversions_inverse c1 q q x P Px) as (o1 & y1 & B1 & G1 & _).
  assert (H : get o q = get o1 q). { unfold build in *. replace (energy_of c1 q x) with (energy_of c q x) in B1 by (destruct q; reflexivity). destruct (energy_of c q x) as [E|]; [|discriminate]. injection B as <-. injection B1 as <-. destruct q; reflexivity. }
  congruence.
Qed.
Print Assumptions C103_read_back.
(** A beam made from any quantity read of another beam compares equal to that beam, up to 1e8 meV. *)
Theorem C103_equal : forall sq c q E, squares sq -> usual c -> / 10 ^ 12 <= E <= 10 ^ 8 -> exists E', energy_fl sq c q (get_fl sq c q (Some E)) = Some E' /\ eq_fl E' E.
Proof.
  intros sq c q E S U X. assert (X' : / 10 ^ 12 <= E <= 10 ^ 12) by lra. destruct (within_comp 12 E X') as [PE CE].
  assert (K : comp 32 300 (energy_fl sq c q (get_fl sq c q (Some E))) E).
  { destruct U as (Uh & Ub & Uk & Um & UJ). assert (U := conj Uh (conj Ub (conj Uk (conj Um UJ)))). destruct (decade_comp _ _ Uh) as [Ph Ch]. destruct (decade_comp _ _ Ub) as [Pb Cb]. destruct (decade_comp _ _ Uk) as [Pk Ck]. destruct (decade_comp _ _ Um) as [Pm Cm]. destruct (J_comp c UJ) as [PJ CJ].
    destruct (back c E q Ph Pb Pk Pm PJ PE) as (y & G & Py & B). nums.
    assert (D : q = QFrequency \/ exists k b, comp k b (get_fl sq c q (Some E)) y /\ 0 <= k <= 8 /\ 0 <= b <= 77).
    { assert (Q : q = QFrequency \/ q <> QFrequency) by (destruct q; auto; right; discriminate). destruct Q as [Q|Nq]; [left; exact Q|right].
      destruct (get_chain_low sq c q _ _ _ _ Nq S U CE ltac:(lra) ltac:(lra)) as (y' & G' & C'). rewrite G in G'. injection G' as <-. do 2 eexists. split; [exact C'|lra]. }
    destruct D as [->|(k & b & C & k8 & b77)].
    - destruct (get_chain sq c QFrequency _ _ _ _ S U CE ltac:(lra) ltac:(lra)) as (y' & G' & C'). rewrite G in G'. injection G' as <-. assert (T12 := tens_comp 12). nums. cbn [energy_of] in B. apply Ok_inj in B.
      rewrite <- B at 2. cbn [energy_fl]. eapply comp_weak; [chain S|lra|lra].
    - destruct (energy_chain sq c q _ _ _ _ S U C k8 b77) as (E2 & H2 & C2). rewrite B in H2. apply Ok_inj in H2. subst E2. eapply comp_weak; [exact C2|lra|lra]. }
  destruct (comp_close _ _ _ _ 33 K ltac:(lra) ltac:(lra) ltac:(lra)) as (E' & H' & D). exists E'. split; [exact H'|]. unfold eq_fl. apply near_equal.
  apply Rle_trans with (1 := D). apply Rle_trans with (33 * / 2 ^ 53 * 10 ^ 8); [apply Rmult_le_compat_l; [apply Rmult_le_pos; [lra|left; apply Rinv_0_lt_compat; lra]|lra]|].
  apply Rmult_le_reg_r with (2 ^ 53); [lra|]. replace (33 * / 2 ^ 53 * 10 ^ 8 * 2 ^ 53) with (33 * 10 ^ 8) by (field; lra). replace (/ 2 ^ 20 * 2 ^ 53) with (2 ^ 33) by (field; lra). lra.
Qed.
Print Assumptions C103_equal.
(** The hypotheses are met by rounding the exact square and by the constants of CODATA. *)
Example C103_squares_ex : squares (fun x => op1 (x ^ 2)).
Proof.
  intros x P A B. exists (rnd (x ^ 2)). assert (X2 : 0 < x ^ 2) by (apply pow_lt, P). assert (E := relative_error_N_FLT radix2 (-1074) 53 eq_refl (fun z => negb (Z.even z)) (x ^ 2)).
  rewrite (Rabs_right (x ^ 2)) in E by lra. specialize (E A). fold (rnd (x ^ 2)) in E. assert (N : bpow radix2 (Z.opp 53 + 1) = / 2 ^ 52) by (change (Z.opp 53 + 1)%Z with (Z.opp 52); rewrite bpow_opp; f_equal; cbn [bpow]; rewrite (pow_IZR 2 52); reflexivity).
  change (Z.neg 53) with (Z.opp 53) in E; rewrite N in E. assert (I : 0 < / 2 ^ 52 < 1) by (split; [apply Rinv_0_lt_compat; lra|rewrite <- Rinv_1; apply Rinv_lt_contravar; lra]).
  assert (E2 : / 2 * / 2 ^ 52 * x ^ 2 < x ^ 2) by nra. assert (H := E). apply Rabs_le_inv in H. split; [|nra]. unfold op1. destruct (Rlt_dec _ _) as [|C]; [reflexivity|]. exfalso. apply C. rewrite Rabs_right by lra. lra.
Qed.
Definition codata : consts := mkC (662607015 / 10 ^ 42) (1054571817 / 10 ^ 43) (1380649 / 10 ^ 29) (167492749804 / 10 ^ 38) (6241509074 * 10 ^ 12).
Example C103_usual_ex : usual codata /\ / 10 ^ 12 <= 5 <= 10 ^ 8.
Proof. unfold usual, decade, codata; cbn [c_h c_hbar c_k c_m c_J]. repeat split; try (cbn; lra); apply Rmult_le_reg_r with (10 ^ 43); cbn; lra. Qed.

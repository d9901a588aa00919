(** Oscillator and dispersion models (C38). *)
From Coq Require Import String List Reals Lra Lia Psatz.
From Coquelicot Require Import Coquelicot.
From Verif Require Import Base FuncModel NumBounds Gauss.
Import ListNotations.
Local Open Scope R_scope.

Lemma cos_per x : cos (x + 2 * PI) = cos x. Proof. rewrite cos_plus, cos_2PI, sin_2PI. ring. Qed.
(** C38.  The damped oscillator solves the equation of motion with damping p4 and angular frequency p2, about the background. *)
Theorem C38_damped : forall b a w ph k, exists y v : R -> R, (forall t, dho [b; a; w; ph; k] t = Ok (y t)) /\ (forall t, is_derive y t (v t)) /\
  (forall t, is_derive v t (- k * v t - (w ^ 2 + k ^ 2 / 4) * (y t - b))) /\ y 0 = b + a * cos ph /\ v 0 = a * (w * sin ph - k / 2 * cos ph).
Proof.
  intros b a w ph k. exists (fun t => b + exp (- k * t / 2) * (0 + a * cos (w * t - ph))), (fun t => exp (- k * t / 2) * (- k / 2 * (a * cos (w * t - ph)) - a * w * sin (w * t - ph))).
  split; [reflexivity|]. split; [|split; [|split]].
  - intros t. auto_derive; auto. replace (- k * t * / 2) with (- k * t / 2) by reflexivity. replace (w * t + - ph) with (w * t - ph) by ring. field.
  - intros t. auto_derive; auto. replace (- k * t * / 2) with (- k * t / 2) by reflexivity. replace (w * t + - ph) with (w * t - ph) by ring. field.
  - replace (- k * 0 / 2) with 0 by field. replace (w * 0 - ph) with (- ph) by ring. rewrite exp_0, cos_neg. ring.
  - replace (- k * 0 / 2) with 0 by field. replace (w * 0 - ph) with (- ph) by ring. rewrite exp_0, cos_neg, sin_neg. field.
Qed.
Print Assumptions C38_damped.
(** C38.  Without damping it is the simple oscillator, of period 2 pi / p2. *)
Theorem C38_undamped : forall b a w ph t, dho [b; a; w; ph; 0] t = sho [b; a; w; ph] t /\ (w <> 0 -> sho [b; a; w; ph] (t + 2 * PI / w) = sho [b; a; w; ph] t).
Proof.
  intros. split.
  - unfold dho, sho, need, par. cbn [List.length Nat.ltb Nat.leb nth bind]. replace (- 0 * t / 2) with 0 by field. rewrite exp_0. f_equal. ring.
  - intros N. unfold sho, need, par. cbn [List.length Nat.ltb Nat.leb nth]. replace (w * (t + 2 * PI / w) - ph) with (w * t - ph + 2 * PI) by (field; auto). now rewrite cos_per.
Qed.
Print Assumptions C38_undamped.
Lemma cos_lt_1 x : 0 < x < 2 * PI -> cos x < 1.
Proof.
  intros H. replace x with (2 * (x / 2)) by field. rewrite cos_2a_sin. assert (S : 0 < sin (x / 2)) by (apply sin_gt_0; lra). nra.
Qed.
(** C38.  The documented meaning of p[2], a period, is not what the code computes. *)
Theorem C38_period_refuted : exists p t, 0 < nth 2 p 0 /\ sho p (t + nth 2 p 0) <> sho p t.
Proof.
  exists [0; 1; 1; 0], 0. cbn [nth]. split; [lra|]. unfold sho, need, par. cbn [List.length Nat.ltb Nat.leb nth]. intros E. injection E as E. replace (1 * (0 + 1) - 0) with 1 in E by ring. replace (1 * 0 - 0) with 0 in E by ring. rewrite cos_0 in E. assert (P := PI_bounds). assert (C := cos_lt_1 1 ltac:(lra)). lra.
Qed.
Print Assumptions C38_period_refuted.

(** What holds of a dispersion: height at the zone boundary, period, even, non-negative, gapless exactly at the zone centres. *)
Record dispersion (f : R -> R) (period top : R) : Prop := {
  d_range : forall x, 0 <= f x <= top; d_even : forall x, f (- x) = f x; d_period : forall x, f (x + period) = f x;
  d_zero : forall x, f x = 0 <-> exists n, x = IZR n * period; d_top : f (period / 2) = top }.
Lemma abs_sin_disp A k : 0 < A -> k <> 0 -> dispersion (fun x => A * Rabs (sin (k * x))) (PI / k) A.
Proof.
  intros PA Nk. assert (TP := PI_RGT_0). split.
  - intros x. assert (B := SIN_bound (k * x)). assert (C := Rabs_pos (sin (k * x))). assert (D : Rabs (sin (k * x)) <= 1) by (apply Rabs_le; lra). nra.
  - intros x. replace (k * - x) with (- (k * x)) by ring. now rewrite sin_neg, Rabs_Ropp.
  - intros x. replace (k * (x + PI / k)) with (k * x + PI) by (field; auto). now rewrite neg_sin, Rabs_Ropp.
  - intros x. split.
    + intros E. apply Rmult_integral in E. destruct E as [E|E]; [lra|]. destruct (Req_dec (sin (k * x)) 0) as [Z|Z]; [|apply Rabs_no_R0 in Z; lra]. apply sin_eq_0_0 in Z. destruct Z as [n Z]. exists n. apply (Rmult_eq_reg_l k); auto. rewrite Z. field. auto.
    + intros [n ->]. replace (k * (IZR n * (PI / k))) with (IZR n * PI) by (field; auto). rewrite (sin_eq_0_1 (IZR n * PI)) by (exists n; auto). rewrite Rabs_R0. ring.
  - replace (k * (PI / k / 2)) with (PI / 2) by (field; auto). rewrite sin_PI2, Rabs_R1. ring.
Qed.
(** C38.  The three dispersions.  Period and top follow from p[1] and p[0] as stated (the documentation calls p[1] the period and p[0] the amplitude). *)
Theorem C38_dispersions : forall A k, 0 < A -> k <> 0 ->
  (exists f, (forall x, acoustic [A; k] x = Ok (Some (f x))) /\ dispersion f (PI / k) (2 * sqrt A)) /\
  (exists f, (forall x, ferro [A; k] x = Ok (f x)) /\ dispersion f (2 * PI / k) (8 * A)) /\
  (exists f, (forall x, antiferro [A; k] x = Ok (f x)) /\ dispersion f (PI / k) A).
Proof.
  intros A k PA Nk. assert (TP := PI_RGT_0). assert (S4 : sqrt (4 * A) = 2 * sqrt A) by (rewrite sqrt_mult by lra; replace 4 with (2 * 2) at 1 by ring; rewrite sqrt_square by lra; reflexivity). assert (SA := sqrt_lt_R0 _ PA). split; [|split].
  - exists (fun x => 2 * sqrt A * Rabs (sin (k * x))). split.
    + intros x. unfold acoustic, need, par. cbn [List.length Nat.ltb Nat.leb nth]. destruct (Rle_dec 0 (4 * A)); [|lra]. now rewrite S4.
    + apply abs_sin_disp; lra.
  - exists (fun x => 4 * A * (1 - cos (k * x))). split; [reflexivity|]. split.
    + intros x. assert (B := COS_bound (k * x)). nra.
    + intros x. replace (k * - x) with (- (k * x)) by ring. now rewrite cos_neg.
    + intros x. replace (k * (x + 2 * PI / k)) with (k * x + 2 * PI) by (field; auto). now rewrite cos_per.
    + intros x. assert (D : forall z, 1 - cos z = 2 * (sin (z / 2) * sin (z / 2))) by (intros z; replace z with (2 * (z / 2)) at 1 by field; rewrite cos_2a_sin; ring). rewrite D. split.
      * intros E. assert (Z : sin (k * x / 2) = 0) by (destruct (Req_dec (sin (k * x / 2)) 0) as [Z|Z]; auto; apply Rsqr_pos_lt in Z; unfold Rsqr in Z; nra). apply sin_eq_0_0 in Z. destruct Z as [n Z]. exists n. apply (Rmult_eq_reg_l (k / 2)); [|lra]. replace (k / 2 * x) with (k * x / 2) by field. rewrite Z. field. auto.
      * intros [n ->]. replace (k * (IZR n * (2 * PI / k)) / 2) with (IZR n * PI) by (field; auto). rewrite (sin_eq_0_1 (IZR n * PI)) by (exists n; auto). ring.
    + replace (k * (2 * PI / k / 2)) with PI by (field; auto). rewrite cos_PI. ring.
  - exists (fun x => A * Rabs (sin (k * x))). split; [reflexivity|]. now apply abs_sin_disp.
Qed.
Print Assumptions C38_dispersions.
Example C38_dispersions_ex : ferro [3; 1] PI = Ok 24. Proof. unfold ferro, need, par. cbn [List.length Nat.ltb Nat.leb nth]. rewrite Rmult_1_l, cos_PI. f_equal. ring. Qed.
Lemma sinc_lim : is_lim (fun x => sin x / x) 0 1. Proof. apply is_lim_sinc_0. Qed.
Lemma scale_lim k : k <> 0 -> is_lim (fun x => sin (k * x) / (k * x)) 0 1.
Proof.
  intros N. apply (is_lim_comp (fun z => sin z / z) (fun x => k * x) 0 1 0); [apply sinc_lim| |].
  - replace (Finite 0) with (Finite (k * 0)) at 2 by (f_equal; ring). apply (is_lim_scal_l (fun x => x) k 0 0), is_lim_id.
  - exists (mkposreal 1 Rlt_0_1). intros x _ X E. inversion E as [Z]. apply Rmult_integral in Z. tauto.
Qed.
(** C38.  Near the zone centre acoustic phonons and antiferromagnets are linear, ferromagnets quadratic, with these stiffnesses. *)
Theorem C38_stiffness : forall A k, 0 < A -> k <> 0 -> exists f g h, (forall x, acoustic [A; k] x = Ok (Some (f x)) /\ antiferro [A; k] x = Ok (g x) /\ ferro [A; k] x = Ok (h x)) /\
  is_lim (fun x => f x / Rabs x) 0 (2 * sqrt A * Rabs k) /\ is_lim (fun x => g x / Rabs x) 0 (A * Rabs k) /\ is_lim (fun x => h x / x ^ 2) 0 (2 * A * k ^ 2).
Proof.
  intros A k PA Nk. assert (S4 : sqrt (4 * A) = 2 * sqrt A) by (rewrite sqrt_mult by lra; replace 4 with (2 * 2) at 1 by ring; rewrite sqrt_square by lra; reflexivity).
  exists (fun x => 2 * sqrt A * Rabs (sin (k * x))), (fun x => A * Rabs (sin (k * x))), (fun x => 4 * A * (1 - cos (k * x))).
  assert (Lin : forall B, is_lim (fun x => B * Rabs (sin (k * x)) / Rabs x) 0 (B * Rabs k)).
  { intros B. apply (is_lim_ext_loc (fun x => B * Rabs k * Rabs (sin (k * x) / (k * x)))).
    - exists (mkposreal 1 Rlt_0_1). intros x _ X. unfold Rdiv. rewrite Rabs_mult, Rabs_inv, Rabs_mult. field. split; now apply Rabs_no_R0.
    - replace (Finite (B * Rabs k)) with (Finite (B * Rabs k * Rabs 1)) by (f_equal; rewrite Rabs_R1; ring). apply (is_lim_scal_l _ (B * Rabs k) 0 (Rabs 1)). apply (is_lim_comp_continuous (fun x => sin (k * x) / (k * x)) Rabs 0 1); [now apply scale_lim|apply continuous_Rabs]. }
  split; [|split; [apply Lin|split; [apply Lin|]]].
  - intros x. split; [|split; reflexivity]. unfold acoustic, need, par. cbn [List.length Nat.ltb Nat.leb nth]. destruct (Rle_dec 0 (4 * A)); [|lra]. now rewrite S4.
  - apply (is_lim_ext_loc (fun x => 2 * A * k ^ 2 * ((sin (k / 2 * x) / (k / 2 * x)) * (sin (k / 2 * x) / (k / 2 * x))))).
    + exists (mkposreal 1 Rlt_0_1). intros x _ X. replace (k * x) with (2 * (k / 2 * x)) by field. rewrite cos_2a_sin. field. split; lra.
    + replace (Finite (2 * A * k ^ 2)) with (Finite (2 * A * k ^ 2 * (1 * 1))) by (f_equal; ring). apply (is_lim_scal_l _ (2 * A * k ^ 2) 0 (1 * 1)). apply (is_lim_mult _ _ 0 1 1); [apply scale_lim; lra|apply scale_lim; lra|exact I].
Qed.
Print Assumptions C38_stiffness.
(** C38.  A negative scale gives nan for the acoustic phonon and negative energies for the magnets; too few parameters raise IndexError. *)
Theorem C38_invalid : forall A k x t p, (A < 0 -> acoustic [A; k] x = Ok None /\ exists e e', antiferro [A; k] x = Ok e /\ ferro [A; k] x = Ok e' /\ e <= 0 /\ e' <= 0) /\
  ((List.length p < 2)%nat -> acoustic p x = Err IndexError /\ ferro p x = Err IndexError /\ antiferro p x = Err IndexError) /\
  ((List.length p < 4)%nat -> sho p t = Err IndexError) /\ ((List.length p < 5)%nat -> dho p t = Err IndexError).
Proof.
  intros A k x t p. unfold acoustic, antiferro, ferro, sho, dho, need. split; [|split; [|split]]; [|intros L; apply Nat.ltb_lt in L; rewrite L; auto ..].
  intros NA. unfold par. cbn [List.length Nat.ltb Nat.leb nth]. destruct (Rle_dec 0 (4 * A)); [lra|]. split; auto. eexists _, _. split; [reflexivity|]. split; [reflexivity|]. assert (B := COS_bound (k * x)). assert (C := Rabs_pos (sin (k * x))). split; nra.
Qed.
Print Assumptions C38_invalid.

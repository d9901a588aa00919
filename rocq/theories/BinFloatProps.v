(** C104: the cells of rebinned data in floating-point arithmetic. *)
From Coq Require Import List Bool Arith Reals ZArith Lra Lia.
From Flocq Require Import Core Relative.
From Verif Require Import Base EnergyFloatModel BinFloatModel.
Import ListNotations.
Local Open Scope R_scope.

(** ** Rounding *)
Definition double (x : R) : Prop := generic_format radix2 (FLT_exp (-1074) 53) x.
Lemma rnd_double x : double x -> rnd x = x.
Proof. apply round_generic, valid_rnd_N. Qed.
Lemma rnd_mono x y : x <= y -> rnd x <= rnd y.
Proof. apply round_le; [apply FLT_exp_valid; reflexivity|apply valid_rnd_N]. Qed.
Lemma rnd_zero : rnd 0 = 0.
Proof. apply round_0, valid_rnd_N. Qed.
Lemma dyadic_double m e : (Z.abs m < 2 ^ 53)%Z -> (-1074 <= e)%Z -> double (IZR m * bpow radix2 e).
Proof. intros M E. apply generic_format_FLT. exists (Float radix2 m e); [reflexivity|exact M|exact E]. Qed.
Lemma Znearest_half (x : R) m : Rabs (x - IZR m) < 1 / 2 \/ (Rabs (x - IZR m) = 1 / 2 /\ Z.even m = true) -> ZnearestE x = m.
Proof.
  intros [H|[H E]]; [apply Znearest_imp; lra|]. assert (X : x = IZR m + 1 / 2 \/ x = IZR m - 1 / 2) by (unfold Rabs in H; destruct (Rcase_abs _); lra). clear H.
  unfold Znearest. destruct X as [-> | ->].
  - assert (F : Zfloor (IZR m + 1 / 2) = m) by (apply Zfloor_imp; rewrite plus_IZR; lra). rewrite F. replace (IZR m + 1 / 2 - IZR m) with (/ 2) by lra. rewrite Rcompare_Eq by reflexivity. rewrite E. reflexivity.
  - assert (F : Zfloor (IZR m - 1 / 2) = (m - 1)%Z) by (apply Zfloor_imp; rewrite plus_IZR, minus_IZR; lra). rewrite F. rewrite minus_IZR. replace (IZR m - 1 / 2 - (IZR m - 1)) with (/ 2) by lra. rewrite Rcompare_Eq by reflexivity.
    assert (O : Z.even (m - 1) = false) by (rewrite Z.even_sub, E; reflexivity). rewrite O. cbn [negb]. apply Zceil_imp. rewrite minus_IZR. lra.
Qed.
(** The rounded value, by its significand and exponent. *)
Lemma rnd_is x m e : (-1074 <= e)%Z -> bpow radix2 (e + 52) <= Rabs x < bpow radix2 (e + 53) ->
  Rabs (x * bpow radix2 (- e) - IZR m) < 1 / 2 \/ (Rabs (x * bpow radix2 (- e) - IZR m) = 1 / 2 /\ Z.even m = true) -> rnd x = IZR m * bpow radix2 e.
Proof.
  intros E B H. assert (C : cexp radix2 (FLT_exp (-1074) 53) x = e). { unfold cexp. rewrite (mag_unique radix2 x (e + 53)); [unfold FLT_exp; lia|]. replace (e + 53 - 1)%Z with (e + 52)%Z by lia. exact B. }
  unfold rnd, round, scaled_mantissa. rewrite C. rewrite (Znearest_half _ m H). reflexivity.
Qed.
Lemma rnd_error z : Rabs (rnd z - z) <= / 2 ^ 53 * Rabs z + bpow radix2 (-1075).
Proof.
  destruct (error_N_FLT radix2 (-1074) 53 eq_refl (fun n => negb (Z.even n)) z) as (eps & eta & A & B & _ & R). fold (rnd z) in R.
  assert (N : / 2 * bpow radix2 (Z.opp 53 + 1) = / 2 ^ 53). { change (Z.opp 53 + 1)%Z with (Z.opp 52). rewrite bpow_opp. cbn [bpow]. replace (IZR (Z.pow_pos radix2 52)) with (2 ^ 52) by (rewrite (pow_IZR 2 52); reflexivity). cbn; field. }
  change (Z.neg 53) with (Z.opp 53) in A. rewrite N in A. assert (T : / 2 * bpow radix2 (-1074) = bpow radix2 (-1075)). { change (-1075)%Z with (-1 + -1074)%Z. rewrite bpow_plus. reflexivity. } rewrite T in B.
  rewrite R. replace (z * (1 + eps) + eta - z) with (z * eps + eta) by ring. apply Rle_trans with (1 := Rabs_triang _ _). apply Rplus_le_compat; [|exact B]. rewrite Rabs_mult, Rmult_comm. apply Rmult_le_compat_r; [apply Rabs_pos|exact A].
Qed.

(** ** Which points are kept *)
Definition kept_on (a : axis) (x : R) : Prop := exists i, (i < x_num a)%nat /\ below a i <= x <= above a i.
(** A point lies in some cell exactly if on every axis it lies between the bounds of some cell. *)
Theorem C104_axes : forall l p, (exists c, In c (cells l) /\ in_cell l c p) <-> Forall2 kept_on l p.
Proof.
  induction l as [|a l IH]; intros p.
  - cbn. split.
    + intros (c & [<-|[]] & H). destruct p; [constructor|destruct H].
    + intros H. inversion H. exists []. auto.
  - cbn [cells]. split.
    + intros (c & I & H). apply in_flat_map in I. destruct I as (i & J & I). apply in_map_iff in I. destruct I as (c' & <- & I). destruct p as [|x p]; [destruct H|]. destruct H as (A & B & H).
      constructor; [|apply IH; eauto]. apply in_seq in J. exists i. split; [lia|lra].
    + intros H. inversion H as [|? x ? p' (i & J & B) F]; subst. apply IH in F. destruct F as (c & I & F). exists (i :: c). split; [|cbn; split; [lra|split; [lra|exact F]]].
      apply in_flat_map. exists i. split; [apply in_seq; lia|]. now apply in_map.
Qed.
Print Assumptions C104_axes.

Definition u : R := / 2 ^ 53.
Lemma u_small : 0 < u <= / 10 ^ 15.
Proof. unfold u. split; [apply Rinv_0_lt_compat; lra|apply Rinv_le_contravar; lra]. Qed.
Definition sized (M : R) (a : axis) : Prop := Rabs (x_lo a) <= M /\ Rabs (x_hi a) <= M /\ x_lo a < x_hi a /\ bpow radix2 (-900) <= M.
Lemma tiny M : bpow radix2 (-900) <= M -> 2 ^ 53 * bpow radix2 (-1075) <= u * M / 4.
Proof.
  intros H. assert (A : bpow radix2 (-1075) = bpow radix2 (-900) * bpow radix2 (-175)) by (rewrite <- bpow_plus; reflexivity). assert (P := bpow_gt_0 radix2 (-900)).
  assert (B : bpow radix2 (-175) <= / 2 ^ 53 * / 2 ^ 53 / 4). { change (-175)%Z with (Z.opp 175). rewrite bpow_opp. cbn [bpow]. replace (IZR (Z.pow_pos radix2 175)) with (2 ^ 53 * 2 ^ 53 * 4 * 2 ^ 67) by (rewrite (pow_IZR 2 53), (pow_IZR 2 67), <- !mult_IZR; reflexivity).
    replace (/ 2 ^ 53 * / 2 ^ 53 / 4) with (/ (2 ^ 53 * 2 ^ 53 * 4)) by (field; lra). apply Rinv_le_contravar; [lra|]. assert (1 <= 2 ^ 67) by (apply pow_R1_Rle; lra). assert (0 < 2 ^ 53 * 2 ^ 53 * 4) by lra. nra. }
  rewrite A. unfold u. apply Rle_trans with (2 ^ 53 * (bpow radix2 (-900) * (/ 2 ^ 53 * / 2 ^ 53 / 4))); [apply Rmult_le_compat_l; [lra|]; apply Rmult_le_compat_l; lra|].
  replace (2 ^ 53 * (bpow radix2 (-900) * (/ 2 ^ 53 * / 2 ^ 53 / 4))) with (/ 2 ^ 53 * bpow radix2 (-900) / 4) by (field; lra). assert (0 < / 2 ^ 53) by (apply Rinv_0_lt_compat; lra). unfold Rdiv. apply Rmult_le_compat_r; [lra|]. apply Rmult_le_compat_l; lra.
Qed.
Lemma rnd_within M b z : bpow radix2 (-900) <= M -> Rabs z <= b * M -> Rabs (rnd z - z) <= (b + 1 / 4) * (u * M).
Proof.
  intros H B. assert (E := rnd_error z). assert (T := tiny M H). assert (P := bpow_gt_0 radix2 (-1075)). fold u in E. assert (U := u_small).
  apply Rle_trans with (1 := E). assert (bpow radix2 (-1075) <= u * M / 4) by nra. assert (u * Rabs z <= u * (b * M)) by (apply Rmult_le_compat_l; lra). lra.
Qed.
Ltac abs := repeat match goal with H : Rabs _ <= _ |- _ => apply Rabs_le_inv in H end; try apply Rabs_le.
Lemma nearest_index k : forall t, 0 <= t <= INR k -> exists i, (i <= k)%nat /\ Rabs (t - INR i) <= 1 / 2.
Proof.
  induction k as [|k IH]; intros t H.
  - exists 0%nat. cbn in *. split; [lia|]. apply Rabs_le. lra.
  - rewrite S_INR in H. destruct (Rle_lt_dec t (INR k)) as [A|A]; [destruct (IH t ltac:(lra)) as (i & I & E); exists i; split; [lia|exact E]|].
    destruct (Rle_lt_dec t (INR k + 1 / 2)) as [B|B]; [exists k|exists (S k); rewrite S_INR]; (split; [lia|]; apply Rabs_le; lra).
Qed.

(** ** Points near the boundaries of cells *)
(** The boundary between the cells [i] and [i+1], in exact arithmetic. *)
Definition boundary (a : axis) (i : nat) : R := x_lo a + (INR i + 1 / 2) * ((x_hi a - x_lo a) / INR (x_num a - 1)).
Lemma cell_errors M a i : sized M a -> (2 <= x_num a)%nat -> INR (x_num a) <= 2 ^ 53 -> (i <= x_num a - 1)%nat ->
  let s := (x_hi a - x_lo a) / INR (x_num a - 1) in let c := x_lo a + INR i * s in
  Rabs (above a i - (c + s / 2)) <= 16 * (u * M) /\ Rabs (below a i - (c - s / 2)) <= 16 * (u * M) /\ 0 <= rnd (width a / 2).
Proof.
  intros (L & H & D0 & T) n2 n53 I s c. assert (U := u_small). assert (TT := tiny M T). assert (PM : 0 < M) by (apply Rlt_le_trans with (2 := T), bpow_gt_0).
  set (N := INR (x_num a - 1)) in *. assert (N1 : 1 <= N) by (unfold N; replace 1 with (INR 1) by reflexivity; apply le_INR; lia).
  assert (N53 : N <= 2 ^ 53) by (apply Rle_trans with (2 := n53); unfold N; apply le_INR; lia). assert (I0 : 0 <= INR i <= N) by (split; [apply pos_INR|unfold N; apply le_INR; exact I]).
  set (lo := x_lo a) in *. set (hi := x_hi a) in *. set (D := hi - lo) in *. set (V := u * M) in *. assert (VM : 0 < V <= M / 10 ^ 15) by (unfold V; split; [nra|unfold Rdiv; nra]).
  assert (DM : 0 < D <= 2 * M) by (unfold D; abs; lra). assert (s0 : 0 < s <= 2 * M). { unfold s, D in *. split; [apply Rdiv_lt_0_compat; lra|]. apply Rmult_le_reg_r with N; [lra|]. unfold Rdiv. rewrite Rmult_assoc, Rinv_l, Rmult_1_r by lra. nra. }
  assert (sN : s * N = D) by (unfold s, D; field; lra).
  (* the width *)
  assert (Ed : Rabs (rnd D - D) <= (2 + 1 / 4) * V) by (apply rnd_within; [exact T|abs; lra]). set (d := rnd D) in *.
  assert (Ew : Rabs (width a - d / N) <= u * Rabs (d / N) + bpow radix2 (-1075)). { unfold width. assert (Q : Nat.eqb (x_num a) 1 = false) by (apply Nat.eqb_neq; lia). rewrite Q. apply rnd_error. }
  set (w := width a) in *. set (k := bpow radix2 (-1075)) in *. assert (k0 : 0 < k) by apply bpow_gt_0.
  assert (dN : Rabs (d / N) <= (2 * M + 3 * V) / N). { unfold Rdiv. rewrite Rabs_mult, (Rabs_right (/ N)) by (left; apply Rinv_0_lt_compat; lra). apply Rmult_le_compat_r; [left; apply Rinv_0_lt_compat; lra|]. abs. lra. }
  assert (wN : Rabs (w * N - D) <= (5 + 1 / 4) * V).
  { replace (w * N - D) with ((w - d / N) * N + (d - D)) by (field; lra). apply Rle_trans with (1 := Rabs_triang _ _). rewrite Rabs_mult, (Rabs_right N) by lra.
    assert (A : Rabs (w - d / N) * N <= (u * ((2 * M + 3 * V) / N) + k) * N) by (apply Rmult_le_compat_r; [lra|]; assert (u * Rabs (d / N) <= u * ((2 * M + 3 * V) / N)) by (apply Rmult_le_compat_l; lra); lra).
    replace ((u * ((2 * M + 3 * V) / N) + k) * N) with (2 * (u * M) + 3 * (u * V) + k * N) in A by (field; lra). fold V in A. assert (k * N <= V / 4) by nra. assert (u * V <= V / 10) by nra. lra. }
  assert (ws : forall r, 0 <= r <= N -> Rabs (r * w - r * s) <= (5 + 1 / 4) * V).
  { intros r [r0 rN]. replace (r * w - r * s) with (r / N * (w * N - D)) by (rewrite <- sN; field; lra). rewrite Rabs_mult. assert (Q : 0 <= r / N <= 1) by (split; [apply Rmult_le_pos; [lra|left; apply Rinv_0_lt_compat; lra]|apply Rmult_le_reg_r with N; [lra|]; unfold Rdiv; rewrite Rmult_assoc, Rinv_l, Rmult_1_r by lra; lra]).
    rewrite (Rabs_right (r / N)) by lra. assert (B := Rabs_pos (w * N - D)). nra. }
  assert (w1 := ws 1 ltac:(lra)). rewrite !Rmult_1_l in w1.
  (* half the width *)
  assert (Eh : Rabs (rnd (w / 2) - s / 2) <= 4 * V). { assert (A : Rabs (rnd (w / 2) - w / 2) <= (11 / 10 + 1 / 4) * V) by (apply rnd_within; [exact T|abs; lra]). abs. lra. }
  (* the centre *)
  assert (Ec : Rabs (centre a i - c) <= 9 * V).
  { unfold centre. assert (Q : Nat.eqb (x_num a) 1 = false) by (apply Nat.eqb_neq; lia). rewrite Q. destruct (Nat.eqb_spec i (x_num a - 1)) as [Ei|Ni].
    - unfold c. rewrite Ei. fold N lo hi. replace (hi - (lo + N * s)) with 0 by (replace (N * s) with D by lra; unfold D; ring). rewrite Rabs_R0. lra.
    - fold w lo. assert (wi := ws (INR i) I0). assert (is : 0 <= INR i * s <= D) by (split; [apply Rmult_le_pos; lra|rewrite <- sN, Rmult_comm; apply Rmult_le_compat_l; lra]).
      assert (A : Rabs (rnd (INR i * w) - INR i * w) <= (21 / 10 + 1 / 4) * V) by (apply rnd_within; [exact T|abs; lra]). set (p := rnd (INR i * w)) in *.
      assert (B : Rabs (rnd (p + lo) - (p + lo)) <= (11 / 10 + 1 / 4) * V) by (apply rnd_within; [exact T|unfold D in *; abs; lra]). unfold c. abs. lra. }
  assert (cM : Rabs c <= M) by (unfold c; assert (is : 0 <= INR i * s <= D) by (split; [apply Rmult_le_pos; lra|rewrite <- sN, Rmult_comm; apply Rmult_le_compat_l; lra]); unfold D in *; abs; lra).
  unfold above, below. fold w. set (h := rnd (w / 2)) in *. set (q := centre a i) in *.
  assert (A1 : Rabs (rnd (q + h) - (q + h)) <= (2 + 1 / 10 + 1 / 4) * V) by (apply rnd_within; [exact T|abs; lra]). assert (A2 : Rabs (rnd (q - h) - (q - h)) <= (2 + 1 / 10 + 1 / 4) * V) by (apply rnd_within; [exact T|abs; lra]).
  split; [abs; lra|]. split; [abs; lra|]. rewrite <- rnd_zero. unfold h. apply rnd_mono. unfold w, width. assert (Q : Nat.eqb (x_num a) 1 = false) by (apply Nat.eqb_neq; lia). rewrite Q. assert (0 <= d) by (rewrite <- rnd_zero; apply rnd_mono; lra).
  assert (0 <= rnd (d / N)) by (rewrite <- rnd_zero; apply rnd_mono; apply Rmult_le_pos; [lra|left; apply Rinv_0_lt_compat; lra]). fold lo hi N. fold D d. lra.
Qed.
(** A point between the bounds that is in no cell is as close to the boundary of two cells as 16 roundings of the larger bound. *)
Theorem C104_missed : forall M a x, sized M a -> double (x_lo a) -> double (x_hi a) -> (2 <= x_num a)%nat -> INR (x_num a) <= 2 ^ 53 -> x_lo a <= x <= x_hi a -> ~ kept_on a x ->
  exists i, (i < x_num a - 1)%nat /\ Rabs (x - boundary a i) <= 16 * / 2 ^ 53 * M.
Proof.
  intros M a x Z Fl Fh n2 n53 X Nk. fold u. set (s := (x_hi a - x_lo a) / INR (x_num a - 1)). assert (N1 : 1 <= INR (x_num a - 1)) by (replace 1 with (INR 1) by reflexivity; apply le_INR; lia).
  assert (D0 : x_lo a < x_hi a) by apply Z. assert (s0 : 0 < s) by (apply Rdiv_lt_0_compat; lra). assert (sN : s * INR (x_num a - 1) = x_hi a - x_lo a) by (unfold s; field; lra).
  destruct (nearest_index (x_num a - 1) ((x - x_lo a) / s)) as (i & I & E). { split; [apply Rmult_le_pos; [lra|left; apply Rinv_0_lt_compat, s0]|]. apply Rmult_le_reg_r with s; [exact s0|]. unfold Rdiv. rewrite Rmult_assoc, Rinv_l, Rmult_1_r by lra. lra. }
  assert (E' : Rabs (x - (x_lo a + INR i * s)) <= s / 2). { replace (x - (x_lo a + INR i * s)) with (((x - x_lo a) / s - INR i) * s) by (field; lra). rewrite Rabs_mult, (Rabs_right s) by lra. apply Rle_trans with (1 / 2 * s); [apply Rmult_le_compat_r; lra|lra]. }
  destruct (cell_errors M a i Z n2 n53 I) as (A & B & h0). fold s in A, B.
  assert (P : x <= above a i \/ above a i < x) by lra. assert (Q : below a i <= x \/ x < below a i) by lra.
  destruct P as [P|P]; [destruct Q as [Q|Q]; [exfalso; apply Nk; exists i; split; [lia|lra]|]|].
  - destruct i as [|i]; [exfalso|exists i; split; [lia|]].
    + assert (F : below a 0 <= x_lo a); [|lra]. unfold below, centre. assert (Y : Nat.eqb (x_num a) 1 = false) by (apply Nat.eqb_neq; lia). rewrite Y. destruct (Nat.eqb_spec 0 (x_num a - 1)); [lia|]. cbn [INR]. rewrite Rmult_0_l, rnd_zero, Rplus_0_l, (rnd_double _ Fl).
      rewrite <- (rnd_double _ Fl) at 2. apply rnd_mono. lra.
    + unfold boundary. fold s. rewrite S_INR in *. abs. lra.
  - destruct (Nat.eq_dec i (x_num a - 1)) as [Ei|Ni]; [exfalso|exists i; split; [lia|]].
    + assert (F : x_hi a <= above a i); [|lra]. unfold above, centre. assert (Y : Nat.eqb (x_num a) 1 = false) by (apply Nat.eqb_neq; lia). rewrite Y. apply Nat.eqb_eq in Ei. rewrite Ei. rewrite <- (rnd_double _ Fh) at 1. apply rnd_mono. lra.
    + unfold boundary. fold s. abs. lra.
Qed.
Print Assumptions C104_missed.
(** On an axis with one cell, as are all coordinates that are not asked for, a point that is missed is as close to one of the ends as 8 roundings. *)
Theorem C104_missed_one : forall M a x, sized M a -> x_num a = 1%nat -> x_lo a <= x <= x_hi a -> ~ kept_on a x -> x - x_lo a <= 8 * / 2 ^ 53 * M \/ x_hi a - x <= 8 * / 2 ^ 53 * M.
Proof.
  intros M a x (L & H & D0 & T) n1 X Nk. fold u. assert (U := u_small). set (V := u * M). assert (PM : 0 < M) by (apply Rlt_le_trans with (2 := T), bpow_gt_0). assert (VM : 0 < V <= M / 10 ^ 15) by (unfold V; split; [nra|unfold Rdiv; nra]).
  assert (K : ~ (below a 0 <= x <= above a 0)) by (intros K; apply Nk; exists 0%nat; split; [lia|exact K]).
  unfold above, below, centre, width in K. rewrite n1 in K. cbn [Nat.eqb] in K. set (lo := x_lo a) in *. set (hi := x_hi a) in *.
  assert (A : Rabs (rnd (lo + hi) - (lo + hi)) <= (2 + 1 / 4) * V) by (apply rnd_within; [exact T|abs; lra]). set (t := rnd (lo + hi)) in *.
  assert (B : Rabs (rnd (t / 2) - t / 2) <= (11 / 10 + 1 / 4) * V) by (apply rnd_within; [exact T|abs; lra]). set (c := rnd (t / 2)) in *.
  assert (C : Rabs (rnd (hi - lo) - (hi - lo)) <= (2 + 1 / 4) * V) by (apply rnd_within; [exact T|abs; lra]). set (w := rnd (hi - lo)) in *.
  assert (E : Rabs (rnd (w / 2) - w / 2) <= (11 / 10 + 1 / 4) * V) by (apply rnd_within; [exact T|abs; lra]). set (h := rnd (w / 2)) in *.
  assert (F : Rabs (rnd (c + h) - (c + h)) <= (11 / 10 + 1 / 4) * V) by (apply rnd_within; [exact T|abs; lra]). assert (G : Rabs (rnd (c - h) - (c - h)) <= (11 / 10 + 1 / 4) * V) by (apply rnd_within; [exact T|abs; lra]).
  replace (8 * u * M) with (8 * V) by (unfold V; ring). abs. lra.
Qed.
Print Assumptions C104_missed_one.

(** ** Grids that are exact *)
(** Bounds and half steps that are multiples of a power of two with 53 bits: every point is kept, and the cells are those of exact arithmetic. *)
Theorem C104_exact : forall (p q e : Z) a x, x_lo a = IZR p * bpow radix2 e -> x_hi a = IZR (p + 2 * q * Z.of_nat (x_num a - 1)) * bpow radix2 e -> (2 <= x_num a)%nat -> (0 < q)%Z -> (-1074 <= e)%Z ->
  (Z.abs p + 2 * q * Z.of_nat (x_num a) < 2 ^ 53)%Z -> x_lo a <= x <= x_hi a -> kept_on a x /\
  forall i, (i < x_num a)%nat -> above a i = x_lo a + (INR i + 1 / 2) * ((x_hi a - x_lo a) / INR (x_num a - 1)) /\ below a i = x_lo a + (INR i - 1 / 2) * ((x_hi a - x_lo a) / INR (x_num a - 1)).
Proof.
  intros p q e a x Hl Hh n2 q0 e0 S X. set (n := x_num a) in *. set (b := bpow radix2 e) in *. assert (b0 : 0 < b) by apply bpow_gt_0.
  assert (N1 : 1 <= INR (n - 1)) by (replace 1 with (INR 1) by reflexivity; apply le_INR; lia). assert (Q0 : 0 < IZR q) by (apply IZR_lt; exact q0).
  assert (DD : x_hi a - x_lo a = IZR (2 * q * Z.of_nat (n - 1)) * b) by (rewrite Hl, Hh, plus_IZR; ring).
  assert (W : width a = IZR (2 * q) * b).
  { unfold width. fold n. assert (Y : Nat.eqb n 1 = false) by (apply Nat.eqb_neq; lia). rewrite Y, DD, (rnd_double (IZR (2 * q * Z.of_nat (n - 1)) * b)) by (apply dyadic_double; [nia|exact e0]).
    replace (IZR (2 * q * Z.of_nat (n - 1)) * b / INR (n - 1)) with (IZR (2 * q) * b) by (rewrite (mult_IZR (2 * q)), <- INR_IZR_INZ; field; lra). apply rnd_double, dyadic_double; [nia|exact e0]. }
  assert (Hf : rnd (width a / 2) = IZR q * b) by (rewrite W; replace (IZR (2 * q) * b / 2) with (IZR q * b) by (rewrite mult_IZR; field); apply rnd_double, dyadic_double; [nia|exact e0]).
  assert (C : forall i, (i < n)%nat -> centre a i = IZR (p + 2 * q * Z.of_nat i) * b).
  { intros i I. unfold centre. fold n. assert (Y : Nat.eqb n 1 = false) by (apply Nat.eqb_neq; lia). rewrite Y. destruct (Nat.eqb_spec i (n - 1)) as [->|Ni]; [rewrite Hh; reflexivity|].
    rewrite W, Hl. replace (INR i * (IZR (2 * q) * b)) with (IZR (2 * q * Z.of_nat i) * b) by (rewrite (mult_IZR (2 * q)), <- INR_IZR_INZ; ring). rewrite (rnd_double (IZR (2 * q * Z.of_nat i) * b)) by (apply dyadic_double; [nia|exact e0]).
    replace (IZR (2 * q * Z.of_nat i) * b + IZR p * b) with (IZR (p + 2 * q * Z.of_nat i) * b) by (rewrite plus_IZR; ring). apply rnd_double, dyadic_double; [nia|exact e0]. }
  assert (AB : forall i, (i < n)%nat -> above a i = IZR (p + 2 * q * Z.of_nat i + q) * b /\ below a i = IZR (p + 2 * q * Z.of_nat i - q) * b).
  { intros i I. unfold above, below. rewrite Hf, (C i I). split.
    - replace (IZR (p + 2 * q * Z.of_nat i) * b + IZR q * b) with (IZR (p + 2 * q * Z.of_nat i + q) * b) by (rewrite (plus_IZR _ q); ring). apply rnd_double, dyadic_double; [nia|exact e0].
    - replace (IZR (p + 2 * q * Z.of_nat i) * b - IZR q * b) with (IZR (p + 2 * q * Z.of_nat i - q) * b) by (rewrite (minus_IZR _ q); ring). apply rnd_double, dyadic_double; [nia|exact e0]. }
  assert (St : (x_hi a - x_lo a) / INR (n - 1) = IZR (2 * q) * b) by (rewrite DD, (mult_IZR (2 * q)), <- INR_IZR_INZ; field; lra).
  assert (G : forall i, (i < n)%nat -> above a i = x_lo a + (INR i + 1 / 2) * (IZR (2 * q) * b) /\ below a i = x_lo a + (INR i - 1 / 2) * (IZR (2 * q) * b)).
  { intros i I. destruct (AB i I) as [-> ->]. rewrite Hl, plus_IZR, minus_IZR, plus_IZR, !mult_IZR, <- INR_IZR_INZ. split; field. }
  split; [|intros i I; rewrite St; apply G, I]. set (s := IZR (2 * q) * b) in *. assert (s0 : 0 < s) by (unfold s; rewrite mult_IZR; apply Rmult_lt_0_compat; lra).
  assert (sN : INR (n - 1) * s = x_hi a - x_lo a) by (rewrite <- St; field; lra).
  destruct (nearest_index (n - 1) ((x - x_lo a) / s)) as (i & I & E). { split; [apply Rmult_le_pos; [lra|left; apply Rinv_0_lt_compat, s0]|]. apply Rmult_le_reg_r with s; [exact s0|]. unfold Rdiv. rewrite Rmult_assoc, Rinv_l, Rmult_1_r by lra. lra. }
  exists i. split; [fold n; lia|]. destruct (G i ltac:(lia)) as [-> ->]. assert (E' : Rabs ((x - x_lo a) - INR i * s) <= 1 / 2 * s). { replace ((x - x_lo a) - INR i * s) with (((x - x_lo a) / s - INR i) * s) by (field; lra). rewrite Rabs_mult, (Rabs_right s) by lra. apply Rmult_le_compat_r; lra. }
  abs. lra.
Qed.
Print Assumptions C104_exact.
(** From -1 to 1 in steps of 1/8. *)
Example C104_exact_ex : forall x, -1 <= x <= 1 -> kept_on (mkAxis (-1) 1 17) x.
Proof.
  intros x X. assert (B : bpow radix2 (-4) = / 16) by reflexivity. apply (C104_exact (-16) 1 (-4) (mkAxis (-1) 1 17) x); cbn [x_lo x_hi x_num]; try lia; try (rewrite B; cbn; lra). exact X.
Qed.

(** ** Points that are lost *)
(** Rounding a multiple of a power of two, by integers. *)
Definition rounds (z m k : Z) : bool :=
  (0 <=? k)%Z && (2 ^ (52 + k) <=? Z.abs z)%Z && (Z.abs z <? 2 ^ (53 + k))%Z && ((2 * Z.abs (z - m * 2 ^ k) <? 2 ^ k)%Z || ((2 * Z.abs (z - m * 2 ^ k) =? 2 ^ k)%Z && Z.even m)).
Lemma rnd_dyadic E z m k : (-1074 <= E)%Z -> rounds z m k = true -> rnd (IZR z * bpow radix2 E) = IZR (m * 2 ^ k) * bpow radix2 E.
Proof.
  intros HE H. unfold rounds in H. apply andb_prop in H. destruct H as [H H4]. apply andb_prop in H. destruct H as [H H3]. apply andb_prop in H. destruct H as [H1 H2]. apply Z.leb_le in H1, H2. apply Z.ltb_lt in H3.
  assert (P : forall j, (0 <= j)%Z -> IZR (2 ^ j) = bpow radix2 j) by (intros j J; rewrite <- (IZR_Zpower radix2 j J); reflexivity). assert (b0 := bpow_gt_0 radix2 E). assert (bk := bpow_gt_0 radix2 k).
  assert (R : rnd (IZR z * bpow radix2 E) = IZR m * bpow radix2 (k + E)); [|rewrite R, mult_IZR, (P k H1), bpow_plus; ring].
  apply rnd_is; [lia| |].
  - rewrite Rabs_mult, (Rabs_right (bpow radix2 E)), <- abs_IZR by lra. replace (k + E + 52)%Z with ((52 + k) + E)%Z by ring. replace (k + E + 53)%Z with ((53 + k) + E)%Z by ring. rewrite (bpow_plus radix2 (52 + k)), (bpow_plus radix2 (53 + k)), <- (P (52 + k)%Z), <- (P (53 + k)%Z) by lia.
    split; [apply Rmult_le_compat_r; [lra|apply IZR_le; exact H2]|apply Rmult_lt_compat_r; [lra|apply IZR_lt; exact H3]].
  - assert (D : IZR z * bpow radix2 E * bpow radix2 (- (k + E)) - IZR m = IZR (z - m * 2 ^ k) / bpow radix2 k).
    { rewrite minus_IZR, mult_IZR, (P k H1). replace (- (k + E))%Z with (- k + - E)%Z by ring. rewrite bpow_plus, !bpow_opp. field. lra. }
    rewrite D. unfold Rdiv. rewrite Rabs_mult, (Rabs_right (/ bpow radix2 k)) by (left; apply Rinv_0_lt_compat, bk). rewrite <- abs_IZR, <- (P k H1). rewrite <- (P k H1) in bk. apply orb_prop in H4. destruct H4 as [H4|H4].
    + left. apply Z.ltb_lt in H4. apply IZR_lt in H4. rewrite mult_IZR in H4. apply Rmult_lt_reg_r with (IZR (2 ^ k)); [exact bk|]. rewrite Rmult_assoc, Rinv_l by lra. lra.
    + right. apply andb_prop in H4. destruct H4 as [H4 H5]. split; [|exact H5]. apply Z.eqb_eq in H4. apply (f_equal IZR) in H4. rewrite mult_IZR in H4. apply Rmult_eq_reg_r with (IZR (2 ^ k)); [|lra]. rewrite Rmult_assoc, Rinv_l by lra. lra.
Qed.

Lemma above_mono a i j : (i <= j)%nat -> (j < x_num a - 1)%nat -> 0 <= width a -> above a i <= above a j /\ below a i <= below a j.
Proof.
  intros I J w. assert (C : centre a i <= centre a j). { unfold centre. assert (Y : Nat.eqb (x_num a) 1 = false) by (apply Nat.eqb_neq; lia). rewrite Y. destruct (Nat.eqb_spec i (x_num a - 1)); [lia|]. destruct (Nat.eqb_spec j (x_num a - 1)); [lia|].
    apply rnd_mono, Rplus_le_compat_r, rnd_mono, Rmult_le_compat_r; [exact w|apply le_INR, I]. }
  split; apply rnd_mono; lra.
Qed.
Definition P60 (z : Z) : R := IZR z * bpow radix2 (-60).
Lemma P60_rnd z m k : rounds z m k = true -> rnd (P60 z) = P60 (m * 2 ^ k).
Proof. apply rnd_dyadic. lia. Qed.
Lemma P60_lt y z : (y < z)%Z -> P60 y < P60 z.
Proof. intros H. apply Rmult_lt_compat_r; [apply bpow_gt_0|apply IZR_lt, H]. Qed.
Lemma P60_add y z : P60 y + P60 z = P60 (y + z).
Proof. unfold P60. rewrite plus_IZR. ring. Qed.
Lemma P60_sub y z : P60 y - P60 z = P60 (y - z).
Proof. unfold P60. rewrite minus_IZR. ring. Qed.
Lemma P60_scale n z : IZR n * P60 z = P60 (n * z).
Proof. unfold P60. rewrite mult_IZR. ring. Qed.
Lemma P60_div n z : n <> 0%Z -> P60 (n * z) / IZR n = P60 z.
Proof. intros H. unfold P60. rewrite mult_IZR. field. apply IZR_neq, H. Qed.
Lemma literal_is n d m k : (0 < d)%Z -> let z := (m * 2 ^ k)%Z in (0 <= k)%Z -> (n * 2 ^ 60 < 2 ^ (53 + k) * d)%Z -> (2 ^ (52 + k) * d <= n * 2 ^ 60)%Z -> (2 * Z.abs (n * 2 ^ 60 - z * d) < 2 ^ k * d)%Z -> rnd (IZR n / IZR d) = P60 z.
Proof.
  intros d0 z k0 B A C. assert (P : forall j, (0 <= j)%Z -> IZR (2 ^ j) = bpow radix2 j) by (intros j J; rewrite <- (IZR_Zpower radix2 j J); reflexivity). assert (D : 0 < IZR d) by (apply IZR_lt; exact d0).
  assert (b0 := bpow_gt_0 radix2 (-60)). assert (bk := bpow_gt_0 radix2 k). assert (P6 : bpow radix2 60 * bpow radix2 (-60) = 1) by (rewrite <- bpow_plus; reflexivity).
  assert (N : IZR n / IZR d = IZR (n * 2 ^ 60) / IZR d * bpow radix2 (-60)). { rewrite mult_IZR, (P 60%Z) by lia. replace (IZR n * bpow radix2 60 / IZR d * bpow radix2 (-60)) with (IZR n / IZR d * (bpow radix2 60 * bpow radix2 (-60))) by (field; lra). rewrite P6. ring. }
  assert (n0 : (0 < n)%Z). { assert (0 < 2 ^ (52 + k) * d)%Z by (apply Z.mul_pos_pos; [apply Z.pow_pos_nonneg; lia|exact d0]). lia. }
  assert (R : rnd (IZR n / IZR d) = IZR m * bpow radix2 (k + -60)); [|rewrite R; unfold P60, z; rewrite mult_IZR, (P k k0), bpow_plus; ring]. apply rnd_is; [lia| |left].
  - rewrite Rabs_right by (left; apply Rdiv_lt_0_compat; [apply IZR_lt; exact n0|exact D]). rewrite N. replace (k + -60 + 52)%Z with ((52 + k) + -60)%Z by ring. replace (k + -60 + 53)%Z with ((53 + k) + -60)%Z by ring.
    rewrite (bpow_plus radix2 (52 + k)), (bpow_plus radix2 (53 + k)), <- (P (52 + k)%Z), <- (P (53 + k)%Z) by lia. apply IZR_le in A. apply IZR_lt in B. rewrite (mult_IZR (2 ^ (52 + k))) in A. rewrite (mult_IZR (2 ^ (53 + k))) in B.
    split; [apply Rmult_le_compat_r; [lra|]|apply Rmult_lt_compat_r; [lra|]]; [apply Rmult_le_reg_r with (IZR d)|apply Rmult_lt_reg_r with (IZR d)]; try exact D; unfold Rdiv; rewrite Rmult_assoc, Rinv_l, Rmult_1_r by lra; assumption.
  - replace (IZR n / IZR d * bpow radix2 (- (k + -60)) - IZR m) with (IZR (n * 2 ^ 60 - z * d) / (IZR d * bpow radix2 k)).
    + unfold Rdiv. rewrite Rabs_mult, Rabs_Rinv, Rabs_mult, (Rabs_right (IZR d)), (Rabs_right (bpow radix2 k)), <- abs_IZR by (try lra; apply Rmult_integral_contrapositive_currified; lra). apply IZR_lt in C. rewrite !mult_IZR, (P k k0) in C.
      apply Rmult_lt_reg_r with (IZR d * bpow radix2 k); [apply Rmult_lt_0_compat; assumption|]. rewrite Rmult_assoc, Rinv_l by (apply Rmult_integral_contrapositive_currified; lra). lra.
    + unfold z. rewrite minus_IZR, !mult_IZR, (P k k0), (P 60%Z) by lia. replace (- (k + -60))%Z with (- k + 60)%Z by ring. rewrite bpow_plus, bpow_opp. field. lra.
Qed.

Lemma rnd_opp x : rnd (- x) = - rnd x.
Proof. apply round_NE_opp. Qed.
Lemma P60_opp z : - P60 z = P60 (- z).
Proof. unfold P60. rewrite opp_IZR. ring. Qed.
Ltac p60 z m k := rewrite (P60_rnd z m k) by (vm_compute; reflexivity).

(** data.bin({'h': [-0.2, 0.2, 9], ...}): 0.075 lies between the cells around 0.05 and 0.1, in none of them. *)
Theorem C104_gap_refuted : exists lo hi x, lo = rnd (- (2 / 10)) /\ hi = rnd (2 / 10) /\ x = rnd (75 / 1000) /\ lo <= x <= hi /\ ~ kept_on (mkAxis lo hi 9) x.
Proof.
  exists (rnd (- (2 / 10))), (rnd (2 / 10)), (rnd (75 / 1000)). do 3 (split; [reflexivity|]).
  assert (H : rnd (2 / 10) = P60 (7205759403792794 * 2 ^ 5)) by (apply (literal_is 2 10); vm_compute; reflexivity || discriminate).
  assert (X : rnd (75 / 1000) = P60 (5404319552844595 * 2 ^ 4)) by (apply (literal_is 75 1000); vm_compute; reflexivity || discriminate).
  rewrite rnd_opp, H, X, P60_opp. split; [split; left; apply P60_lt; vm_compute; reflexivity|].
  set (a := mkAxis _ _ 9). assert (W : width a = P60 (7205759403792794 * 2 ^ 3)).
  { unfold width, a. cbn [x_num x_lo x_hi Nat.eqb Nat.sub]. rewrite P60_sub. rewrite (P60_rnd _ 7205759403792794 6) by (vm_compute; reflexivity). replace (INR 8) with 8 by (cbn; ring). change (7205759403792794 * 2 ^ 6)%Z with (8 * (7205759403792794 * 2 ^ 3))%Z. rewrite (P60_div 8) by lia. apply P60_rnd. vm_compute. reflexivity. }
  assert (W2 : rnd (width a / 2) = P60 (7205759403792794 * 2 ^ 2)). { rewrite W. change (7205759403792794 * 2 ^ 3)%Z with (2 * (7205759403792794 * 2 ^ 2))%Z. rewrite (P60_div 2) by lia. apply P60_rnd. vm_compute. reflexivity. }
  assert (W0 : 0 <= width a) by (rewrite W; apply Rmult_le_pos; [apply IZR_le; vm_compute; discriminate|apply bpow_ge_0]).
  assert (C5 : centre a 5 = P60 (7205759403792792 * 2 ^ 3)).
  { unfold centre. cbn [x_num a Nat.eqb Nat.sub]. rewrite W. replace (INR 5) with 5 by (cbn; ring). rewrite (P60_scale 5), (P60_rnd _ 4503599627370496 6) by (vm_compute; reflexivity). cbn [x_lo a]. rewrite P60_add. apply P60_rnd. vm_compute. reflexivity. }
  assert (C6 : centre a 6 = P60 (7205759403792796 * 2 ^ 4)).
  { unfold centre. cbn [x_num a Nat.eqb Nat.sub]. rewrite W. replace (INR 6) with 6 by (cbn; ring). rewrite (P60_scale 6), (P60_rnd _ 5404319552844596 6) by (vm_compute; reflexivity). cbn [x_lo a]. rewrite P60_add. apply P60_rnd. vm_compute. reflexivity. }
  assert (A5 : above a 5 = P60 (5404319552844594 * 2 ^ 4)) by (unfold above; rewrite W2, C5, P60_add; apply P60_rnd; vm_compute; reflexivity).
  assert (B6 : below a 6 = P60 (5404319552844598 * 2 ^ 4)) by (unfold below; rewrite W2, C6, P60_sub; apply P60_rnd; vm_compute; reflexivity).
  assert (B8 : below a 6 <= below a 8). { unfold below. apply rnd_mono. apply Rplus_le_compat_r. rewrite C6. unfold centre. cbn [x_num x_hi a Nat.eqb Nat.sub]. left. apply P60_lt. vm_compute. reflexivity. }
  intros (i & I & L & G). change (i < 9)%nat in I. destruct (le_lt_dec i 5) as [S|S].
  - destruct (above_mono a i 5 S ltac:(cbn; lia) W0) as [M _]. rewrite A5 in M. assert (T := P60_lt (5404319552844594 * 2 ^ 4) (5404319552844595 * 2 ^ 4) eq_refl). lra.
  - assert (T := P60_lt (5404319552844595 * 2 ^ 4) (5404319552844598 * 2 ^ 4) eq_refl). rewrite <- B6 in T. destruct (Nat.eq_dec i 8) as [->|N]; [lra|]. destruct (above_mono a 6 i ltac:(lia) ltac:(cbn; lia) W0) as [_ M]. lra.
Qed.
Print Assumptions C104_gap_refuted.

(** Coordinates not asked for are to be averaged over from their smallest to their largest value: with values from 1.0 to 1.3 the points at 1.3 are left out. *)
Theorem C104_averaged_refuted : exists lo hi, lo = 1 /\ hi = rnd (13 / 10) /\ ~ kept_on (mkAxis lo hi 1) hi.
Proof.
  exists 1, (rnd (13 / 10)). do 2 (split; [reflexivity|]).
  assert (H : rnd (13 / 10) = P60 (5854679515581645 * 2 ^ 8)) by (apply (literal_is 13 10); vm_compute; reflexivity || discriminate).
  assert (O : 1 = P60 (4503599627370496 * 2 ^ 8)). { unfold P60. change (4503599627370496 * 2 ^ 8)%Z with (2 ^ 60)%Z. change (bpow radix2 (-60)) with (/ IZR (2 ^ 60)). symmetry. apply Rinv_r. apply IZR_neq. discriminate. }
  rewrite H. set (a := mkAxis _ _ 1). assert (W2 : rnd (width a / 2) = P60 (5404319552844596 * 2 ^ 5)).
  { unfold width, a. cbn [x_num x_lo x_hi Nat.eqb]. rewrite O, P60_sub, (P60_rnd _ 5404319552844596 6) by (vm_compute; reflexivity). change (5404319552844596 * 2 ^ 6)%Z with (2 * (5404319552844596 * 2 ^ 5))%Z. rewrite (P60_div 2) by lia. apply P60_rnd. vm_compute. reflexivity. }
  assert (C : forall i, centre a i = P60 (5179139571476070 * 2 ^ 8)).
  { intros i. unfold centre, a. cbn [x_num x_lo x_hi Nat.eqb]. rewrite O, P60_add, (P60_rnd _ 5179139571476070 9) by (vm_compute; reflexivity). change (5179139571476070 * 2 ^ 9)%Z with (2 * (5179139571476070 * 2 ^ 8))%Z. rewrite (P60_div 2) by lia. apply P60_rnd. vm_compute. reflexivity. }
  intros (i & _ & _ & L). unfold above in L. rewrite C, W2, P60_add, (P60_rnd _ 5854679515581644 8) in L by (vm_compute; reflexivity).
  assert (T := P60_lt (5854679515581644 * 2 ^ 8) (5854679515581645 * 2 ^ 8) eq_refl). lra.
Qed.
Print Assumptions C104_averaged_refuted.

(** The two witnesses meet the hypotheses of [C104_missed] and [C104_missed_one] with [M = 2]. *)
Lemma two_large : bpow radix2 (-900) <= 2.
Proof. change 2 with (bpow radix2 1). apply bpow_le. lia. Qed.
Lemma P60_double z : (Z.abs z < 2 ^ 53)%Z -> forall k, (0 <= k)%Z -> double (P60 (z * 2 ^ k)).
Proof.
  intros Z k K. unfold P60. rewrite mult_IZR. replace (IZR (2 ^ k)) with (bpow radix2 k) by (rewrite <- (IZR_Zpower radix2 k K); reflexivity). rewrite Rmult_assoc, <- bpow_plus. apply dyadic_double; [exact Z|lia].
Qed.
Example C104_missed_ex : exists a x, sized 2 a /\ double (x_lo a) /\ double (x_hi a) /\ (2 <= x_num a)%nat /\ INR (x_num a) <= 2 ^ 53 /\ x_lo a <= x <= x_hi a /\ ~ kept_on a x.
Proof.
  destruct C104_gap_refuted as (lo & hi & x & L & H & X & I & K). exists (mkAxis lo hi 9), x. cbn [x_lo x_hi x_num].
  assert (H' : rnd (2 / 10) = P60 (7205759403792794 * 2 ^ 5)) by (apply (literal_is 2 10); vm_compute; reflexivity || discriminate). rewrite rnd_opp, H', P60_opp in L. rewrite H' in H. change (- (7205759403792794 * 2 ^ 5))%Z with (-7205759403792794 * 2 ^ 5)%Z in L.
  assert (D : P60 (7205759403792794 * 2 ^ 5) <= 2). { rewrite <- H'. replace 2 with (rnd 2) at 2; [apply rnd_mono; lra|]. apply rnd_double. replace 2 with (IZR 1 * bpow radix2 1) by (cbn; ring). apply dyadic_double; [reflexivity|lia]. }
  assert (E : P60 (-7205759403792794 * 2 ^ 5) = - P60 (7205759403792794 * 2 ^ 5)) by (rewrite P60_opp; reflexivity). assert (P : 0 < P60 (7205759403792794 * 2 ^ 5)) by (replace 0 with (P60 0) by (unfold P60; ring); apply P60_lt; reflexivity).
  split; [unfold sized; cbn [x_lo x_hi]; repeat split; [apply Rabs_le; lra|apply Rabs_le; lra|lra|apply two_large]|]. split; [rewrite L; apply P60_double; [reflexivity|lia]|]. split; [rewrite H; apply P60_double; [reflexivity|lia]|].
  split; [lia|]. split; [cbn [INR]; lra|]. split; assumption.
Qed.
Example C104_missed_one_ex : exists a x, sized 2 a /\ x_num a = 1%nat /\ x_lo a <= x <= x_hi a /\ ~ kept_on a x.
Proof.
  destruct C104_averaged_refuted as (lo & hi & L & H & K). exists (mkAxis lo hi 1), hi. cbn [x_lo x_hi x_num].
  assert (O : forall k, rnd (bpow radix2 k) = bpow radix2 k \/ (k < -1000)%Z). { intros k. destruct (Z_lt_le_dec k (-1000)); [now right|left]. apply rnd_double. replace (bpow radix2 k) with (IZR 1 * bpow radix2 k) by ring. apply dyadic_double; [reflexivity|lia]. }
  destruct (O 0%Z) as [O0|]; [|lia]. destruct (O 1%Z) as [O1|]; [|lia]. change (bpow radix2 0) with 1 in O0. change (bpow radix2 1) with 2 in O1.
  assert (A : hi <= 2) by (rewrite H, <- O1; apply rnd_mono; lra). assert (B : 1 <= hi) by (rewrite H, <- O0; apply rnd_mono; lra).
  assert (C : 1 < hi). { destruct B as [B|B]; [exact B|exfalso]. apply K. rewrite L, <- B. exists 0%nat. split; [cbn; lia|]. unfold above, below, centre, width. cbn [x_lo x_hi x_num Nat.eqb]. replace (1 - 1) with 0 by ring. rewrite rnd_zero. replace (0 / 2) with 0 by field. rewrite rnd_zero. replace (1 + 1) with 2 by ring. rewrite O1. replace (2 / 2) with 1 by field. rewrite O0, Rplus_0_r, Rminus_0_r, O0. lra. }
  split; [unfold sized; cbn [x_lo x_hi]; repeat split; [apply Rabs_le; lra|apply Rabs_le; lra|lra|apply two_large]|]. split; [reflexivity|]. split; [lra|exact K].
Qed.

(** C107: numbers of points in floating-point arithmetic. *)
From Coq Require Import List Arith ZArith Reals Lra Lia.
From Flocq Require Import Core.
From Verif Require Import Base EnergyFloatModel BinFloatProps PointsFloatModel.
Import ListNotations.
Local Open Scope R_scope.

Lemma trunc_between x k : (0 <= k)%Z -> IZR k <= x < IZR k + 1 -> Ztrunc x = k.
Proof. intros K H. rewrite Ztrunc_floor; [|apply IZR_le in K; lra]. apply Zfloor_imp. rewrite plus_IZR. lra. Qed.
Lemma rnd_nonneg x : 0 <= x -> 0 <= rnd x.
Proof. intros H. rewrite <- rnd_zero. apply rnd_mono, H. Qed.
Lemma large b : 1 <= b -> bpow radix2 (-900) <= b.
Proof. intros H. apply Rle_trans with (bpow radix2 0); [apply bpow_le; lia|exact H]. Qed.
Lemma u_val : u * 2 ^ 40 = / 8192.
Proof. unfold u. field. Qed.
(** The rounded product of n and p percent is near. *)
Lemma percent_near n p : (0 <= p <= 100)%Z -> INR n <= 2 ^ 40 -> let e := INR n * IZR p / 100 in 0 <= rnd (INR n * rnd (IZR p / 100)) /\ Rabs (rnd (INR n * rnd (IZR p / 100)) - e) < 1 / 1000.
Proof.
  intros P N e. assert (n0 := pos_INR n). destruct P as [P0 P1]. apply IZR_le in P0, P1. assert (U := u_small). assert (UV := u_val).
  set (z := IZR p / 100). assert (Z : 0 <= z <= 1) by (unfold z; lra). assert (A := rnd_within 1 1 z (large 1 ltac:(lra)) ltac:(rewrite Rabs_right by lra; lra)). assert (Z0 := rnd_nonneg z ltac:(lra)). assert (Z1 : rnd z <= 1) by (replace 1 with (rnd 1); [apply rnd_mono; lra|apply rnd_double; assert (D := dyadic_double 1 0 eq_refl ltac:(lia)); cbn in D; rewrite Rmult_1_r in D; exact D]).
  set (w := INR n * rnd z). assert (W : 0 <= w <= 2 ^ 40) by (unfold w; split; [apply Rmult_le_pos; lra|apply Rle_trans with (INR n * 1); [apply Rmult_le_compat_l; lra|lra]]).
  assert (B := rnd_within (2 ^ 40) 1 w (large (2 ^ 40) ltac:(lra)) ltac:(rewrite Rabs_right by lra; lra)). split; [apply rnd_nonneg; lra|].
  assert (Ee : e = INR n * z) by (unfold e, z; lra). assert (D : Rabs (w - e) <= 2 ^ 40 * (5 / 4 * u)). { rewrite Ee. unfold w. replace (INR n * rnd z - INR n * z) with (INR n * (rnd z - z)) by ring. rewrite Rabs_mult, (Rabs_right (INR n)) by lra. apply Rmult_le_compat; [lra|apply Rabs_pos|lra|lra]. }
  apply Rabs_le_inv in B, D. apply Rabs_lt. fold z w. clearbody w. clearbody e. lra.
Qed.
(** Whole percentages of fewer than 2^40 points: the number of points is the whole part of the exact one, or one less if the exact one is whole. *)
Theorem C107_percent : forall n p, (0 <= p <= 100)%Z -> INR n <= 2 ^ 40 ->
  percent_points n (IZR p) = (Z.of_nat n * p / 100)%Z \/ ((Z.of_nat n * p mod 100 = 0)%Z /\ percent_points n (IZR p) = (Z.of_nat n * p / 100 - 1)%Z).
Proof.
  intros n p P N. destruct (percent_near n p P N) as [C0 C]. unfold percent_points. set (c := rnd (INR n * rnd (IZR p / 100))) in *. clearbody c. rewrite INR_IZR_INZ in C. rewrite <- mult_IZR in C. set (t := (Z.of_nat n * p)%Z) in *. assert (t0 : (0 <= t)%Z) by (unfold t; lia). clearbody t.
  assert (D := Z.div_mod t 100 ltac:(lia)). assert (M := Z.mod_pos_bound t 100 ltac:(lia)). set (k := (t / 100)%Z) in *. set (r := (t mod 100)%Z) in *. assert (K : (0 <= k)%Z) by (apply Z.div_pos; lia). clearbody k r. rewrite D, plus_IZR, mult_IZR in C. apply Rabs_lt_inv in C.
  destruct (Z.eq_dec r 0) as [->|R0].
  - destruct (Rle_lt_dec (IZR k) c) as [L|L]; [left; apply trunc_between; [exact K|lra]|right]. split; [reflexivity|]. destruct (Z.eq_dec k 0) as [->|K0]; [lra|]. apply trunc_between; [lia|]. rewrite minus_IZR. lra.
  - left. assert (1 <= IZR r <= 99) by (split; apply IZR_le; lia). apply trunc_between; [exact K|lra].
Qed.
Print Assumptions C107_percent.
Example C107_percent_case : percent_points 200 (IZR 33) = 66%Z \/ percent_points 200 (IZR 33) = 65%Z.
Proof. destruct (C107_percent 200 33 ltac:(lia)) as [E|[_ E]]; [rewrite INR_IZR_INZ; cbn; lra|left; exact E|right; exact E]. Qed.
(** A quarter, half, three quarters and all of the points are counted exactly. *)
Theorem C107_quarters : forall n p, In p [0; 25; 50; 75; 100]%Z -> INR n <= 2 ^ 40 -> percent_points n (IZR p) = (Z.of_nat n * p / 100)%Z.
Proof.
  intros n p P N. assert (Q : exists q, p = (25 * q)%Z /\ (0 <= q <= 4)%Z) by (destruct P as [<-|[<-|[<-|[<-|[<-|[]]]]]]; [exists 0%Z|exists 1%Z|exists 2%Z|exists 3%Z|exists 4%Z]; lia). destruct Q as (q & -> & Q). unfold percent_points.
  assert (E : forall m, (0 <= m < 2 ^ 53)%Z -> rnd (IZR m / 4) = IZR m / 4). { intros m M. apply rnd_double. replace (IZR m / 4) with (IZR m * bpow radix2 (-2)) by (cbn; lra). apply dyadic_double; lia. }
  replace (IZR (25 * q) / 100) with (IZR q / 4) by (rewrite mult_IZR; lra). rewrite E by lia. rewrite INR_IZR_INZ in N |- *. assert (N' : (Z.of_nat n <= 2 ^ 40)%Z) by (apply le_IZR; change (IZR (2 ^ 40)) with 1099511627776; lra).
  replace (IZR (Z.of_nat n) * (IZR q / 4)) with (IZR (Z.of_nat n * q) / 4) by (rewrite mult_IZR; lra). rewrite E by nia. set (t := (Z.of_nat n * q)%Z). replace (Z.of_nat n * (25 * q))%Z with (25 * t)%Z by (unfold t; ring). change 100%Z with (25 * 4)%Z. rewrite Z.div_mul_cancel_l by lia.
  assert (t0 : (0 <= t)%Z) by (unfold t; lia). assert (D := Z.div_mod t 4 ltac:(lia)). assert (M := Z.mod_pos_bound t 4 ltac:(lia)). apply trunc_between; [apply Z.div_pos; lia|]. set (k := (t / 4)%Z) in *. set (r := (t mod 4)%Z) in *. rewrite D, plus_IZR, mult_IZR. assert (0 <= IZR r <= 3) by (split; apply IZR_le; lia). lra.
Qed.
Print Assumptions C107_quarters.
(** 29 percent of 100 points are 28. *)
Theorem C107_percent_refuted : exists n p, (0 <= p <= 100)%Z /\ (Z.of_nat n * p mod 100 = 0)%Z /\ percent_points n (IZR p) = (Z.of_nat n * p / 100 - 1)%Z.
Proof.
  exists 100%nat, 29%Z. split; [lia|]. split; [reflexivity|]. change (Z.of_nat 100 * 29 / 100 - 1)%Z with 28%Z. unfold percent_points. assert (L := literal_is 29 100 5224175567749775 6 ltac:(lia) ltac:(lia) eq_refl ltac:(vm_compute; discriminate) eq_refl). rewrite L. clear L.
  replace (INR 100) with (IZR 100) by (rewrite INR_IZR_INZ; reflexivity). rewrite P60_scale. rewrite (P60_rnd _ 8162774324609023 12) by reflexivity. apply trunc_between; [lia|]. replace (IZR 28) with (P60 (28 * 2 ^ 60)) by (unfold P60; cbn; lra). replace (P60 (28 * 2 ^ 60) + 1) with (P60 (29 * 2 ^ 60)) by (unfold P60; cbn; lra).
  split; [left|]; apply P60_lt; reflexivity.
Qed.
Print Assumptions C107_percent_refuted.

(** ** Ranges of the form factor *)
Lemma spacing_is : spacing = P60 28823037615171176.
Proof. unfold spacing. rewrite (literal_is 25 1000 7205759403792794 2 ltac:(lia) ltac:(lia) eq_refl ltac:(vm_compute; discriminate) eq_refl). reflexivity. Qed.
Lemma rnd_rel z : bpow radix2 (-900) <= z -> (1 - 5 / 4 * u) * z <= rnd z <= (1 + 5 / 4 * u) * z.
Proof. intros H. assert (0 < bpow radix2 (-900)) by apply bpow_gt_0. assert (A := rnd_within z 1 z H ltac:(rewrite Rabs_right by lra; lra)). apply Rabs_le_inv in A. lra. Qed.
Lemma spacing_near : (1 - 5 / 4 * u) * (1 / 40) <= spacing <= (1 + 5 / 4 * u) * (1 / 40).
Proof. unfold spacing. replace (25 / 1000) with (1 / 40) by lra. apply rnd_rel. apply Rle_trans with (bpow radix2 (-10)); [apply bpow_le; lia|cbn; lra]. Qed.
Lemma quotient_near D : 1 / 1000 <= D -> (1 - 4 * u) * (40 * D) <= rnd (rnd D / spacing) <= (1 + 4 * u) * (40 * D).
Proof.
  intros H. assert (U : 0 < u <= / 10 ^ 15) by apply u_small. assert (u1 : u <= 1 / 1000000) by lra. assert (S := spacing_near). assert (T : bpow radix2 (-900) <= 1 / 2000) by (apply Rle_trans with (bpow radix2 (-20)); [apply bpow_le; lia|cbn; lra]).
  assert (d := rnd_rel D ltac:(lra)). set (r := rnd D) in *. set (s := spacing) in *. assert (s0 : 1 / 41 < s < 1 / 39) by lra. assert (r0 : 1 / 1500 < r). { apply Rlt_le_trans with ((1 - 5 / 4 * u) * (1 / 1000)); [lra|]. apply Rle_trans with ((1 - 5 / 4 * u) * D); [apply Rmult_le_compat_l; lra|lra]. }
  assert (Q : r = r / s * s) by (field; lra). set (x := r / s) in *. assert (x0 : 1 / 2000 <= x). { apply Rmult_le_reg_r with s; [lra|]. rewrite <- Q. lra. } assert (q := rnd_rel x ltac:(lra)). clearbody x r s.
  assert (X : (1 - 5 / 4 * u) * D <= (1 + 5 / 4 * u) * (1 / 40) * x) by (apply Rle_trans with (s * x); [lra|apply Rmult_le_compat_r; lra]).
  assert (Y : (1 - 5 / 4 * u) * (1 / 40) * x <= (1 + 5 / 4 * u) * D) by (apply Rle_trans with (s * x); [apply Rmult_le_compat_r; lra|lra]).
  split.
  - apply Rle_trans with ((1 - 5 / 4 * u) * x); [|lra]. apply Rmult_le_reg_l with (1 + 5 / 4 * u); [lra|]. apply Rle_trans with ((1 - 5 / 4 * u) * ((1 - 5 / 4 * u) * (40 * D))); [|replace ((1 + 5 / 4 * u) * ((1 - 5 / 4 * u) * x)) with ((1 - 5 / 4 * u) * ((1 + 5 / 4 * u) * x)) by ring; apply Rmult_le_compat_l; lra].
    rewrite <- !Rmult_assoc. apply Rmult_le_compat_r; [lra|]. nra.
  - apply Rle_trans with ((1 + 5 / 4 * u) * x); [lra|]. apply Rmult_le_reg_l with (1 - 5 / 4 * u); [lra|]. apply Rle_trans with ((1 + 5 / 4 * u) * ((1 + 5 / 4 * u) * (40 * D))); [replace ((1 - 5 / 4 * u) * ((1 + 5 / 4 * u) * x)) with ((1 + 5 / 4 * u) * ((1 - 5 / 4 * u) * x)) by ring; apply Rmult_le_compat_l; lra|].
    rewrite <- !Rmult_assoc. apply Rmult_le_compat_r; [lra|]. nra.
Qed.
(** The points of a range are never closer than 0.025 and, if there are N, at most N / (N - 1) times as far apart, both up to one part in 2^50. *)
Theorem C107_distance : forall lo hi, 3 / 100 <= hi - lo -> let n := IZR (range_points lo hi) in
  2 <= n /\ 1 / 40 * (1 - / 2 ^ 50) <= distance lo hi <= 1 / 40 * (1 + / 2 ^ 50) * (n / (n - 1)).
Proof.
  intros lo hi H n. unfold n. clear n. set (D := hi - lo) in *. unfold distance, range_points. fold D. assert (Q := quotient_near D ltac:(lra)). set (q := rnd (rnd D / spacing)) in *. clearbody q D. rewrite plus_IZR. assert (U : 0 < u <= / 10 ^ 15) by apply u_small. assert (V : / 2 ^ 50 = 8 * u) by (unfold u; field). rewrite V. assert (u1 : u <= 1 / 1000000) by lra.
  assert (Dp : (1 - 4 * u) * (6 / 5) <= (1 - 4 * u) * (40 * D)) by (apply Rmult_le_compat_l; lra). assert (q1 : 1 <= q) by lra. rewrite Ztrunc_floor by lra. assert (F := Zfloor_lb q). assert (G := Zfloor_ub q). assert (F1 : 1 <= IZR (Zfloor q)) by (apply (IZR_le 1), Zfloor_lub; exact q1). set (k := IZR (Zfloor q)) in *. clearbody k.
  split; [lra|]. replace (k + 1 - 1) with k by ring. split.
  - apply Rmult_le_reg_r with k; [lra|]. unfold Rdiv at 2. rewrite (Rmult_assoc D), Rinv_l, Rmult_1_r by lra. assert (A : k <= (1 + 4 * u) * (40 * D)) by lra. apply Rle_trans with (1 / 40 * (1 - 8 * u) * ((1 + 4 * u) * (40 * D))); [apply Rmult_le_compat_l; lra|].
    replace (1 / 40 * (1 - 8 * u) * ((1 + 4 * u) * (40 * D))) with ((1 - 4 * u - 32 * u * u) * D) by field. rewrite <- (Rmult_1_l D) at 2. apply Rmult_le_compat_r; nra.
  - apply Rmult_le_reg_r with k; [lra|]. unfold Rdiv at 1. rewrite (Rmult_assoc D), Rinv_l, Rmult_1_r by lra. replace (1 / 40 * (1 + 8 * u) * ((k + 1) / k) * k) with (1 / 40 * (1 + 8 * u) * (k + 1)) by (field; lra).
    assert (A : (1 - 4 * u) * (40 * D) <= k + 1) by lra. apply Rle_trans with (1 / 40 * (1 + 8 * u) * ((1 - 4 * u) * (40 * D))); [|apply Rmult_le_compat_l; lra]. replace (1 / 40 * (1 + 8 * u) * ((1 - 4 * u) * (40 * D))) with ((1 + 4 * u - 32 * u * u) * D) by field. rewrite <- (Rmult_1_l D) at 1. apply Rmult_le_compat_r; nra.
Qed.
Print Assumptions C107_distance.
(** The number of points of a range that is a whole number k of times 0.025 is k + 1 or k; of others it is one more than the whole part. *)
Theorem C107_number : forall lo hi k, (1 <= k < 2 ^ 40)%Z ->
  (hi - lo = IZR k * (1 / 40) -> range_points lo hi = (k + 1)%Z \/ range_points lo hi = k) /\
  ((IZR k + 1 / 1000) * (1 / 40) <= hi - lo <= (IZR k + 999 / 1000) * (1 / 40) -> range_points lo hi = (k + 1)%Z).
Proof.
  intros lo hi k [K1 K2]. unfold range_points. set (D := hi - lo). assert (K1' := IZR_le _ _ K1). assert (K2' : IZR k <= 2 ^ 40) by (apply Z.lt_le_incl, IZR_le in K2; change (IZR (2 ^ 40)) with 1099511627776 in K2; lra). assert (UV := u_val). assert (U : 0 < u <= / 10 ^ 15) by apply u_small.
  assert (N : forall x, 0 <= x <= 2 ^ 40 + 1 -> 4 * u * x <= 1 / 1100). { intros x X. apply Rle_trans with (4 * u * (2 ^ 40 + 1)); [apply Rmult_le_compat_l; lra|lra]. }
  split; intros H.
  - assert (Q := quotient_near D ltac:(lra)). set (q := rnd (rnd D / spacing)) in *. clearbody q. rewrite H in Q. replace (40 * (IZR k * (1 / 40))) with (IZR k) in Q by field. specialize (N (IZR k) ltac:(lra)). destruct (Rle_lt_dec (IZR k) q) as [L|L].
    + left. f_equal. apply trunc_between; [lia|lra].
    + right. rewrite (trunc_between q (k - 1)); [ring|lia|]. rewrite minus_IZR. lra.
  - assert (Q := quotient_near D ltac:(lra)). set (q := rnd (rnd D / spacing)) in *. clearbody q. specialize (N (40 * D) ltac:(lra)). f_equal. apply trunc_between; [lia|]. lra.
Qed.
Print Assumptions C107_number.
(** Without a range there are 81 points, 0.025 apart; from 0 to 0.3 there are 12, not 13. *)
Theorem C107_default : default_points = 81%Z.
Proof.
  unfold default_points. rewrite spacing_is. assert (E : 2 / P60 28823037615171176 = 2305843009213693952 / 28823037615171176) by (unfold P60; cbn; field). rewrite E. rewrite (rnd_is _ (80 * 2 ^ 46) (-46)); [|lia|cbn; rewrite Rabs_right by lra; lra|left; cbn; apply Rabs_lt; lra]. replace (IZR (80 * 2 ^ 46) * bpow radix2 (-46)) with (IZR 80) by (cbn; lra). rewrite Ztrunc_IZR. reflexivity.
Qed.
Print Assumptions C107_default.
Theorem C107_range_refuted : exists hi, hi = rnd (12 * (25 / 1000)) /\ range_points 0 hi = 12%Z.
Proof.
  exists (rnd (12 * (25 / 1000))). split; [reflexivity|]. unfold range_points. rewrite Rminus_0_r. replace (12 * (25 / 1000)) with (3 / 10) by lra. rewrite (literal_is 3 10 5404319552844595 6 ltac:(lia) ltac:(lia) eq_refl ltac:(vm_compute; discriminate) eq_refl). rewrite (rnd_double (P60 _)) by (apply P60_double; [reflexivity|lia]). rewrite spacing_is.
  assert (E : P60 (5404319552844595 * 2 ^ 6) / P60 28823037615171176 = 345876451382054080 / 28823037615171176) by (unfold P60; cbn; field). rewrite E. rewrite (rnd_is _ (12 * 2 ^ 49 - 1) (-49)); [|lia|cbn; rewrite Rabs_right by lra; lra|left; cbn; apply Rabs_lt; lra]. rewrite (trunc_between _ 11); [reflexivity|lia|cbn; lra].
Qed.
Print Assumptions C107_range_refuted.
Example C107_number_case : range_points 0 2 = 81%Z \/ range_points 0 2 = 80%Z.
Proof. apply (C107_number 0 2 80 ltac:(lia)). lra. Qed.
Example C107_distance_case : 1 / 40 * (1 - / 2 ^ 50) <= distance 0 2.
Proof. apply (C107_distance 0 2). lra. Qed.

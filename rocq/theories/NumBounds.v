(** Numerical bounds for pi and log 2 used by concrete claims. *)
From Coq Require Import Reals Lra Lia Ratan Exp_prop.
Local Open Scope R_scope.

Lemma PI_bounds : 314159265 / 100000000 < PI < 314159266 / 100000000.
Proof.
  assert (H := PI_2_3_7_ineq 4). unfold tg_alt, PI_2_3_7_tg, Ratan_seq in H. simpl in H. lra.
Qed.

Lemma exp_minus_series x N : 0 <= x <= 1 -> 
  sum_f_R0 (tg_alt (fun k => x ^ k / INR (fact k))) (S (2 * N)) <= exp (- x) <= sum_f_R0 (tg_alt (fun k => x ^ k / INR (fact k))) (2 * N).
Proof.
  intros [X0 X1]. apply alternated_series_ineq.
  - intros n. cbn [fact pow]. assert (P : 0 < INR (fact n)) by (apply lt_0_INR, lt_O_fact). assert (P' : 0 < INR (S n)) by (apply lt_0_INR; lia).
    change (fact n + n * fact n)%nat with (S n * fact n)%nat. rewrite mult_INR. assert (Q : 0 <= x ^ n) by now apply pow_le.
    assert (S1 : 1 <= INR (S n)) by (rewrite S_INR; assert (Y := pos_INR n); lra).
    replace (x * x ^ n / (INR (S n) * INR (fact n))) with (x / INR (S n) * (x ^ n / INR (fact n))) by (field; lra).
    rewrite <- (Rmult_1_l (x ^ n / INR (fact n))) at 2. apply Rmult_le_compat_r; [apply Rmult_le_pos; auto; left; now apply Rinv_0_lt_compat|].
    apply Rmult_le_reg_r with (INR (S n)); auto. unfold Rdiv. rewrite Rmult_assoc, Rinv_l by lra. lra.
  - apply cv_speed_pow_fact.
  - intros e E. destruct (E1_cvg (- x) e E) as (N0 & H). exists N0. intros n L. specialize (H n L). unfold E1 in H.
    replace (sum_f_R0 (tg_alt (fun k => x ^ k / INR (fact k))) n) with (sum_f_R0 (fun k => / INR (fact k) * (- x) ^ k) n); auto.
    apply sum_eq. intros i _. unfold tg_alt. replace (- x) with (-1 * x) by ring. rewrite Rpow_mult_distr. unfold Rdiv. ring.
Qed.
Lemma fact_S n : INR (fact (S n)) = IZR (Z.of_nat (S n)) * INR (fact n).
Proof. rewrite fact_simpl, mult_INR, (INR_IZR_INZ (S n)). reflexivity. Qed.
Ltac expand := unfold tg_alt; cbn [Nat.mul Nat.add sum_f_R0]; rewrite !fact_S; change (fact 0) with 1%nat; cbn [INR Z.of_nat Pos.of_succ_nat Pos.succ pow].
Lemma ln2_bounds : 693147180 / 1000000000 < ln 2 < 693147181 / 1000000000.
Proof.
  split; apply exp_lt_inv; rewrite exp_ln by lra.
  - set (x := 693147180 / 1000000000). assert (H := exp_minus_series x 6 ltac:(unfold x; lra)). destruct H as [H _].
    assert (E : exp (- x) * exp x = 1) by (rewrite <- exp_plus, Rplus_opp_l; apply exp_0).
    assert (L : / 2 < exp (- x)). { eapply Rlt_le_trans; [|exact H]. unfold x. expand. lra. }
    assert (P := exp_pos x). nra.
  - set (x := 693147181 / 1000000000). assert (H := exp_minus_series x 6 ltac:(unfold x; lra)). destruct H as [_ H].
    assert (E : exp (- x) * exp x = 1) by (rewrite <- exp_plus, Rplus_opp_l; apply exp_0).
    assert (L : exp (- x) < / 2). { eapply Rle_lt_trans; [exact H|]. unfold x. expand. lra. }
    assert (P := exp_pos x). nra.
Qed.

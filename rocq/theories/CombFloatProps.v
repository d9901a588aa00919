(** C105: combining data in floating-point arithmetic. *)
From Coq Require Import List Bool Arith Reals ZArith Lra Lia Permutation.
From Flocq Require Import Core Relative Plus_error Sterbenz.
From Verif Require Import Base EnergyFloatModel BinFloatProps CombFloatModel.
Import ListNotations.
Local Open Scope R_scope.

Fixpoint total (c : point -> R) (l : list point) : R := match l with [] => 0 | p :: l => c p + total c l end.
(** The columns of counts. *)
Definition counts (c : point -> R) : Prop := c = p_det \/ c = p_mon \/ c = p_time.
Lemma add_counts_col r c p o : counts c -> c (add_counts r p o) = r (c p + c o).
Proof. intros [->|[->| ->]]; reflexivity. Qed.
Lemma total_app c l m : total c (l ++ m) = total c l + total c m.
Proof. induction l as [|p l IH]; cbn; [ring|]. rewrite IH. ring. Qed.
Lemma total_perm c l m : Permutation l m -> total c l = total c m.
Proof. induction 1; cbn; lra. Qed.
Lemma first_near_lt r tols o l j : first_near r tols o l = Some j -> (j < length l)%nat.
Proof.
  revert j. induction l as [|p l IH]; cbn; [discriminate|]. intros j. destruct (near _ _ _ _); [intros H; injection H as <-; lia|]. destruct (first_near r tols o l) as [i|]; [|discriminate]. intros H. injection H as <-. specialize (IH i eq_refl). lia.
Qed.
Lemma add_at_split r o : forall l j, (j < length l)%nat -> exists l1 p l2, l = l1 ++ p :: l2 /\ add_at r j o l = l1 ++ add_counts r p o :: l2.
Proof.
  induction l as [|q l IH]; intros j J; [cbn in J; lia|]. destruct j as [|j]; [exists [], q, l; auto|]. cbn in J. destruct (IH j ltac:(lia)) as (l1 & p & l2 & -> & E). exists (q :: l1), p, l2. split; [reflexivity|]. cbn [add_at]. rewrite E. reflexivity.
Qed.
(** What the loop does to the points: any invariant kept by adding counts to a point and by appending a point. *)
Lemma loop_ind (P : list point -> list point -> Prop) r tols self :
  (forall obj o l1 p l2, (length self <= length (l1 ++ p :: l2))%nat -> P (o :: obj) (l1 ++ p :: l2) -> P obj (l1 ++ add_counts r p o :: l2)) -> (forall obj o t, P (o :: obj) t -> P obj (t ++ [o])) ->
  forall obj t, (length self <= length t)%nat -> P obj t -> P [] (comb_loop r tols self obj t).
Proof.
  intros A B. induction obj as [|o obj IH]; intros t L H; [exact H|]. cbn [comb_loop]. destruct (first_near r tols o self) as [j|] eqn:E.
  - apply first_near_lt in E. destruct (add_at_split r o t j ltac:(lia)) as (l1 & p & l2 & -> & ->). apply IH; [rewrite app_length in *; cbn in *; lia|]. apply A; assumption.
  - apply IH; [rewrite app_length; lia|]. apply B, H.
Qed.

(** ** Whole numbers of counts *)
(** Multiples of a power of two, such as whole numbers of counts or times in quarters of a second. *)
Definition units (e : Z) (c : point -> R) (p : point) : Prop := exists n, (0 <= n)%Z /\ c p = IZR n * bpow radix2 e.
Lemma units_total e c l : Forall (units e c) l -> exists n, (0 <= n)%Z /\ total c l = IZR n * bpow radix2 e.
Proof.
  induction 1 as [|p l (n & n0 & N) _ (m & m0 & M)]; [exists 0%Z; split; [lia|cbn; ring]|]. exists (n + m)%Z. split; [lia|]. cbn. rewrite N, M, plus_IZR. ring.
Qed.
Lemma units_add e m n : (0 <= m)%Z -> (0 <= n)%Z -> (-1074 <= e)%Z -> IZR m * bpow radix2 e + IZR n * bpow radix2 e < 2 ^ 53 * bpow radix2 e -> machine (IZR m * bpow radix2 e + IZR n * bpow radix2 e) = IZR (m + n) * bpow radix2 e.
Proof.
  intros m0 n0 e0 H. assert (b0 := bpow_gt_0 radix2 e). rewrite <- Rmult_plus_distr_r, <- plus_IZR in *. apply Rmult_lt_reg_r in H; [|exact b0]. rewrite (pow_IZR 2 53) in H. apply lt_IZR in H. apply rnd_double, dyadic_double; [change (2 ^ Z.of_nat 53)%Z with (2 ^ 53)%Z in H; lia|exact e0].
Qed.
Definition inv e c N (obj t : list point) : Prop := Forall (units e c) obj /\ Forall (units e c) t /\ total c t + total c obj = N.
Lemma inv_add e c N obj o l1 p l2 : counts c -> (-1074 <= e)%Z -> N < 2 ^ 53 * bpow radix2 e -> inv e c N (o :: obj) (l1 ++ p :: l2) ->
  machine (c p + c o) = c p + c o /\ inv e c N obj (l1 ++ add_counts machine p o :: l2).
Proof.
  intros C e0 T (U1 & U2 & E). inversion U1 as [|? ? Uo U1']; subst. apply Forall_app in U2. destruct U2 as [V1 V2]. inversion V2 as [|? ? Up V2']; subst.
  destruct (units_total e c _ V1) as (a & a0 & A). destruct (units_total e c _ V2') as (b & bb0 & B). destruct (units_total e c _ U1') as (d & d0 & D). destruct Uo as (n & n0 & En). destruct Up as (m & m0 & Em).
  rewrite total_app in T. cbn in T. assert (b0 := bpow_gt_0 radix2 e). assert (K : forall z, (0 <= z)%Z -> 0 <= IZR z * bpow radix2 e) by (intros z z0; apply Rmult_le_pos; [apply IZR_le; exact z0|lra]).
  assert (M : machine (c p + c o) = IZR (m + n) * bpow radix2 e). { rewrite En, Em. apply units_add; try assumption. assert (Ka := K a a0). assert (Kb := K b bb0). assert (Kd := K d d0). lra. }
  assert (Q : c (add_counts machine p o) = IZR (m + n) * bpow radix2 e) by (rewrite add_counts_col by exact C; exact M).
  split; [rewrite M, En, Em, plus_IZR; ring|]. split; [exact U1'|]. split.
  - apply Forall_app. split; [exact V1|]. constructor; [|exact V2']. exists (m + n)%Z. split; [lia|exact Q].
  - rewrite !total_app. cbn. rewrite Q, plus_IZR. lra.
Qed.
Lemma inv_app e c N obj o t : inv e c N (o :: obj) t -> inv e c N obj (t ++ [o]).
Proof. intros (U1 & U2 & E). inversion U1 as [|? ? Uo U1']; subst. split; [exact U1'|]. split; [apply Forall_app; auto|]. rewrite total_app. cbn. lra. Qed.
(** Below 2^53 units in all, no count is lost or invented, whatever points are merged. *)
Theorem C105_counts : forall e tols self obj l c, counts c -> (-1074 <= e)%Z -> Forall (units e c) self -> Forall (units e c) obj -> total c self + total c obj < 2 ^ 53 * bpow radix2 e ->
  Permutation (combined machine tols self obj) l -> total c l = total c self + total c obj /\ Forall (units e c) l.
Proof.
  intros e tols self obj l c C e0 S O T P. set (N := total c self + total c obj) in *.
  assert (H : inv e c N [] (combined machine tols self obj)).
  { unfold combined. apply (loop_ind (inv e c N) machine tols self); [| |lia|unfold inv; auto].
    - intros ob o l1 p l2 _ H. eapply inv_add; eauto.
    - intros ob o t. apply inv_app. }
  destruct H as (_ & U & E). split; [rewrite <- (total_perm c _ _ P); cbn in E; lra|]. eapply Permutation_Forall; eauto.
Qed.
Print Assumptions C105_counts.
Example C105_counts_ex : let d := [mkPoint [1; 0] 100 1000 30; mkPoint [2; 0] 200 1000 30] in
  forall c, counts c -> Forall (units 0 c) d /\ total c d + total c d < 2 ^ 53 * bpow radix2 0.
Proof.
  assert (K : forall n c p, (0 <= n)%Z -> c p = IZR n -> units 0 c p) by (intros n c p n0 E; exists n; split; [exact n0|rewrite E; cbn; ring]).
  intros d c [->|[->| ->]]; (split; [|cbn; lra]); (constructor; [|constructor; [|constructor]]); [apply (K 100%Z)|apply (K 200%Z)|apply (K 1000%Z)|apply (K 1000%Z)|apply (K 30%Z)|apply (K 30%Z)]; (lia || reflexivity).
Qed.
(** Not above: one count more than 2^53 is lost. *)
Theorem C105_large_refuted : exists n, combined machine [0] [mkPoint [1] n 0 0] [mkPoint [1] 1 0 0] = [mkPoint [1] n 0 0] /\ double n.
Proof.
  exists (2 ^ 53). assert (B : 2 ^ 53 = bpow radix2 53) by (cbn; lra). assert (R : machine (2 ^ 53 + 1) = 2 ^ 53).
  { unfold machine. transitivity (IZR 4503599627370496 * bpow radix2 1); [|cbn; lra]. apply rnd_is; [lia| |right; split; [|reflexivity]].
    - rewrite Rabs_right by lra. split; [change (bpow radix2 (1 + 52)) with (bpow radix2 53); rewrite <- B; lra|]. replace (bpow radix2 (1 + 53)) with (2 * 2 ^ 53) by (cbn; lra). lra.
    - replace (bpow radix2 (- (1))) with (/ 2) by reflexivity. rewrite Rabs_right; lra. }
  split; [|rewrite B; apply generic_format_bpow; cbn; lia]. generalize dependent (2 ^ 53). intros n _ R. unfold combined. cbn. destruct (Rle_dec _ _) as [_|N]; cbn; [|exfalso; apply N; replace (1 - 1) with 0 by ring; unfold machine; rewrite rnd_zero, Rabs_R0; lra].
  unfold add_counts. cbn [p_at p_det p_mon p_time]. rewrite R. replace (0 + 0) with 0 by ring. unfold machine. rewrite rnd_zero. reflexivity.
Qed.
Print Assumptions C105_large_refuted.

(** ** Counts that are not whole *)
Definition nonneg (c : point -> R) (p : point) : Prop := 0 <= c p /\ double (c p).
Lemma total_nonneg c l : Forall (nonneg c) l -> 0 <= total c l.
Proof. induction 1 as [|p l [H _] _ IH]; cbn; lra. Qed.
Lemma plus_error x y : double x -> double y -> Rabs (machine (x + y) - (x + y)) <= u * Rabs (x + y).
Proof.
  intros X Y. destruct (@FLT_plus_error_N_ex radix2 (-1074) 53 eq_refl (fun n => negb (Z.even n)) x y X Y) as (eps & B & R). fold (rnd (x + y)) in R. unfold machine. rewrite R.
  replace ((x + y) * (1 + eps) - (x + y)) with (eps * (x + y)) by ring. rewrite Rabs_mult. apply Rmult_le_compat_r; [apply Rabs_pos|]. apply Rle_trans with (1 := B). apply Rle_trans with (1 := u_rod1pu_ro_le_u_ro radix2 53). right.
  unfold u_ro, u. change (Z.opp 53 + 1)%Z with (Z.opp 52). rewrite bpow_opp. cbn [bpow]. replace (IZR (Z.pow_pos radix2 52)) with (2 ^ 52) by (rewrite (pow_IZR 2 52); reflexivity). cbn; field.
Qed.
Definition bounded c (N : R) (n : nat) (obj t : list point) : Prop :=
  Forall (nonneg c) obj /\ Forall (nonneg c) t /\ (length obj <= n)%nat /\ (1 - u) ^ (n - length obj) * (N - total c obj) <= total c t <= (1 + u) ^ (n - length obj) * (N - total c obj) /\ 0 <= N - total c obj.
(** Times and other counts that are not whole: each point added changes the total by one rounding at most. *)
Theorem C105_bound : forall tols self obj l c, counts c -> Forall (nonneg c) self -> Forall (nonneg c) obj -> Permutation (combined machine tols self obj) l ->
  (1 - / 2 ^ 53) ^ length obj * (total c self + total c obj) <= total c l <= (1 + / 2 ^ 53) ^ length obj * (total c self + total c obj).
Proof.
  intros tols self obj l c C S O P. fold u. rewrite <- (total_perm c _ _ P). set (N := total c self + total c obj). assert (U := u_small). assert (u1 : u < 1) by lra.
  assert (H : bounded c N (length obj) [] (combined machine tols self obj)).
  { unfold combined. apply (loop_ind (bounded c N (length obj)) machine tols self).
    - intros ob o l1 p l2 _ (U1 & U2 & L & B & Z). inversion U1 as [|? ? [o0 Fo] U1']; subst. apply Forall_app in U2. destruct U2 as [V1 V2]. inversion V2 as [|? ? [p0 Fp] V2']; subst. cbn [length] in L.
      assert (t1 := total_nonneg c _ V1). assert (t2 := total_nonneg c _ V2'). assert (E := plus_error (c p) (c o) Fp Fo). rewrite (Rabs_right (c p + c o)) in E by lra. rewrite <- (add_counts_col machine c p o C) in E. apply Rabs_le_inv in E.
      split; [exact U1'|]. split; [apply Forall_app; split; [exact V1|]; constructor; [|exact V2']|].
      { split; [assert (u * (c p + c o) <= 1 * (c p + c o)) by (apply Rmult_le_compat_r; lra); lra|]. rewrite add_counts_col by exact C. apply generic_format_round; [apply FLT_exp_valid; reflexivity|apply valid_rnd_N]. }
      split; [lia|]. cbn [total] in B, Z. rewrite !total_app in *. cbn [total] in *. set (D := (length obj - length (o :: ob))%nat) in *. replace (length obj - length ob)%nat with (Datatypes.S D) by (unfold D; cbn [length]; lia). cbn [pow].
      assert (pl : 0 < (1 - u) ^ D <= 1). { split; [apply pow_lt; lra|]. apply Rle_trans with (1 ^ D); [apply pow_incr; lra|rewrite pow1; lra]. } assert (ph : 1 <= (1 + u) ^ D) by (apply pow_R1_Rle; lra).
      set (X := N - (c o + total c ob)) in *. replace (N - total c ob) with (X + c o) by (unfold X; ring). set (A := total c l1 + (c p + total c l2)) in *.
      split; [|unfold X in *; lra]. split.
      + apply Rle_trans with ((1 - u) * (A + c o)).
        * rewrite Rmult_assoc. apply Rmult_le_compat_l; [lra|]. assert ((1 - u) ^ D * c o <= 1 * c o) by (apply Rmult_le_compat_r; lra). lra.
        * unfold A. assert (0 <= u * (total c l1 + total c l2)) by (apply Rmult_le_pos; lra). lra.
      + apply Rle_trans with ((1 + u) * (A + c o)).
        * unfold A. assert (0 <= u * (total c l1 + total c l2)) by (apply Rmult_le_pos; lra). lra.
        * rewrite Rmult_assoc. apply Rmult_le_compat_l; [lra|]. assert (1 * c o <= (1 + u) ^ D * c o) by (apply Rmult_le_compat_r; lra). lra.
    - intros ob o t (U1 & U2 & L & B & Z). inversion U1 as [|? ? [o0 Fo] U1']; subst. split; [exact U1'|]. split; [apply Forall_app; split; [exact U2|constructor; [split; assumption|constructor]]|]. cbn [length] in L. split; [lia|].
      cbn [total] in B, Z. rewrite total_app. cbn [total]. set (D := (length obj - length (o :: ob))%nat) in *. replace (length obj - length ob)%nat with (Datatypes.S D) by (unfold D; cbn [length]; lia). cbn [pow].
      assert (pl : 0 < (1 - u) ^ D <= 1). { split; [apply pow_lt; lra|]. apply Rle_trans with (1 ^ D); [apply pow_incr; lra|rewrite pow1; lra]. } assert (ph : 1 <= (1 + u) ^ D) by (apply pow_R1_Rle; lra).
      set (X := N - (c o + total c ob)) in *. replace (N - total c ob) with (X + c o) by (unfold X; ring). assert (T0 := total_nonneg c _ U2). split; [|lra]. split.
      + apply Rle_trans with ((1 - u) ^ D * (X + c o)); [rewrite Rmult_assoc; assert (0 <= (1 - u) ^ D * (X + c o)) by (apply Rmult_le_pos; lra); assert (0 <= u * ((1 - u) ^ D * (X + c o))) by (apply Rmult_le_pos; lra); lra|]. assert ((1 - u) ^ D * c o <= 1 * c o) by (apply Rmult_le_compat_r; lra). lra.
      + apply Rle_trans with ((1 + u) ^ D * (X + c o)); [assert (1 * c o <= (1 + u) ^ D * c o) by (apply Rmult_le_compat_r; lra); lra|]. rewrite Rmult_assoc. assert (0 <= u * ((1 + u) ^ D * (X + c o))) by (apply Rmult_le_pos; [lra|]; apply Rmult_le_pos; lra). lra.
    - lia.
    - assert (T := total_nonneg c _ S). split; [exact O|]. split; [exact S|]. split; [lia|]. rewrite Nat.sub_diag. cbn [pow]. unfold N. split; lra. }
  destruct H as (_ & _ & _ & B & _). cbn [total length] in B. rewrite Nat.sub_0_r, Rminus_0_r in B. exact B.
Qed.
Print Assumptions C105_bound.

(** ** Which points are merged *)
Lemma rnd_abs x : Rabs (rnd x) = rnd (Rabs x).
Proof.
  unfold Rabs at 2. destruct (Rcase_abs x) as [H|H].
  - rewrite rnd_opp. assert (rnd x <= 0) by (rewrite <- rnd_zero; apply rnd_mono; lra). unfold Rabs. destruct (Rcase_abs _); lra.
  - assert (0 <= rnd x) by (rewrite <- rnd_zero; apply rnd_mono; lra). apply Rabs_right. lra.
Qed.
Lemma double_opp x : double x -> double (- x).
Proof. apply generic_format_opp. Qed.
Lemma minus_error x y : double x -> double y -> Rabs (rnd (x - y)) >= (1 - u) * Rabs (x - y).
Proof.
  intros X Y. assert (E := plus_error x (- y) X (double_opp y Y)). unfold machine in E. change (x + - y) with (x - y) in E. assert (U := u_small). assert (T := Rabs_triang_inv (x - y) (rnd (x - y))). rewrite (Rabs_minus_sym (x - y) (rnd (x - y))) in T. lra.
Qed.
Lemma minus_close x y : double x -> double y -> Rabs (x - y) <= Rabs y / 2 -> rnd (x - y) = x - y.
Proof.
  intros X Y H. apply rnd_double. unfold Rabs in H at 2. destruct (Rcase_abs y) as [N|N].
  - replace (x - y) with (- (- x - - y)) by ring. apply double_opp. apply sterbenz; [apply FLT_exp_valid; reflexivity|apply FLT_exp_monotone|apply double_opp, X|apply double_opp, Y|]. apply Rabs_le_inv in H. lra.
  - apply sterbenz; [apply FLT_exp_valid; reflexivity|apply FLT_exp_monotone|exact X|exact Y|]. apply Rabs_le_inv in H. lra.
Qed.
Definition wider (tols : list R) : list R := map (fun t => t * (1 + / 2 ^ 52)) tols.
(** Points within the tolerances are merged; points that are merged are within the tolerances up to their last digit. *)
Theorem C105_place : forall tols a b, Forall double tols -> Forall double a -> Forall double b ->
  (near exact tols a b = true -> near machine tols a b = true) /\ (near machine tols a b = true -> near exact (wider tols) a b = true).
Proof.
  induction tols as [|t tols IH]; intros a b T A B; [split; reflexivity|]. destruct a as [|x a]; [split; reflexivity|]. destruct b as [|y b]; [split; reflexivity|].
  inversion T as [|? ? Ft T']; subst. inversion A as [|? ? Fx A']; subst. inversion B as [|? ? Fy B']; subst. destruct (IH a b T' A' B') as [I J]. assert (U := u_small). cbn [near wider map]. split; intros H; apply andb_prop in H; destruct H as [H1 H2]; apply andb_true_intro; (split; [|apply I, H2 || apply J, H2]).
  - destruct (Rle_dec (Rabs (exact (x - y))) t) as [D|]; [|discriminate]. destruct (Rle_dec _ _) as [|N]; [reflexivity|]. exfalso. apply N. unfold machine. rewrite rnd_abs. unfold exact in D. rewrite <- (rnd_double t Ft). apply rnd_mono, D.
  - destruct (Rle_dec (Rabs (machine (x - y))) t) as [D|]; [|discriminate]. destruct (Rle_dec _ _) as [|N]; [reflexivity|]. exfalso. apply N. unfold machine in D. assert (E := minus_error x y Fx Fy). unfold exact. replace (/ 2 ^ 52) with (2 * u) by (unfold u; cbn; field). assert (Q := Rabs_pos (x - y)).
    assert (Z : (1 - u) * Rabs (x - y) <= t) by lra. assert (t0 : 0 <= t) by (apply Rle_trans with (2 := Z); apply Rmult_le_pos; lra). assert (W : (1 - u) * Rabs (x - y) * (1 + 2 * u) <= t * (1 + 2 * u)) by (apply Rmult_le_compat_r; lra). apply Rle_trans with (2 := W).
    replace ((1 - u) * Rabs (x - y) * (1 + 2 * u)) with (Rabs (x - y) * (1 + u * (1 - 2 * u))) by ring. rewrite <- (Rmult_1_r (Rabs (x - y))) at 1. apply Rmult_le_compat_l; [exact Q|]. assert (0 <= u * (1 - 2 * u)) by (apply Rmult_le_pos; lra). lra.
Qed.
Print Assumptions C105_place.
(** For coordinates that are 0 or at least four times the tolerance, which points are merged does not depend on rounding. *)
Fixpoint clear (tols b : list R) : Prop :=
  match tols, b with t :: ts, y :: ys => (y = 0 \/ 4 * t <= Rabs y) /\ clear ts ys | _, _ => True end.
Lemma near_clear : forall tols a b, Forall double a -> Forall double b -> clear tols b -> near machine tols a b = near exact tols a b.
Proof.
  induction tols as [|t tols IH]; intros a b A B C; [reflexivity|]. destruct a as [|x a]; [reflexivity|]. destruct b as [|y b]; [reflexivity|]. inversion A as [|? ? Fx A']; subst. inversion B as [|? ? Fy B']; subst. destruct C as [C C'].
  cbn [near]. rewrite (IH a b A' B' C'). f_equal. unfold machine, exact. assert (U := u_small). assert (Q := Rabs_pos (x - y)).
  assert (E : rnd (x - y) = x - y \/ Rabs (x - y) > 2 * t). { destruct C as [->|C]; [left; rewrite Rminus_0_r; apply rnd_double, Fx|]. destruct (Rle_lt_dec (Rabs (x - y)) (Rabs y / 2)); [left; now apply minus_close|right; lra]. }
  destruct E as [->|E]; [reflexivity|]. assert (M := minus_error x y Fx Fy). assert (Qr := Rabs_pos (rnd (x - y))).
  assert (t < Rabs (rnd (x - y)) /\ t < Rabs (x - y)). { destruct (Rle_lt_dec 0 t); [|lra]. split; [|lra]. apply Rlt_le_trans with ((1 - u) * Rabs (x - y)); [|lra]. assert (1 / 2 * Rabs (x - y) <= (1 - u) * Rabs (x - y)) by (apply Rmult_le_compat_r; lra). lra. }
  destruct (Rle_dec _ _); destruct (Rle_dec _ _); lra || reflexivity.
Qed.
Lemma first_near_clear tols o l : Forall double (p_at o) -> clear tols (p_at o) -> Forall (fun p => Forall double (p_at p)) l -> first_near machine tols o l = first_near exact tols o l.
Proof. intros O C. induction 1 as [|p l P _ IH]; [reflexivity|]. cbn. rewrite near_clear by assumption. rewrite IH. reflexivity. Qed.
Lemma add_exact o : forall j l l1 p l2, l = l1 ++ p :: l2 -> length l1 = j -> (forall c, counts c -> machine (c p + c o) = c p + c o) -> add_at machine j o l = add_at exact j o l.
Proof.
  induction j as [|j IH]; intros l l1 p l2 -> L H; (destruct l1 as [|q l1]; [|]); try discriminate L; cbn in L |- *.
  - unfold add_counts, exact. rewrite (H p_det), (H p_mon), (H p_time) by (unfold counts; auto). reflexivity.
  - f_equal. eapply IH; [reflexivity|lia|exact H].
Qed.
Definition whole c self obj : Prop := exists e, (-1074 <= e)%Z /\ Forall (units e c) self /\ Forall (units e c) obj /\ total c self + total c obj < 2 ^ 53 * bpow radix2 e.
(** Then, and with whole counts, combining is that of exact arithmetic. *)
Theorem C105_same : forall tols self obj, Forall (fun p => Forall double (p_at p)) self -> Forall (fun p => Forall double (p_at p) /\ clear tols (p_at p)) obj -> (forall c, counts c -> whole c self obj) ->
  combined machine tols self obj = combined exact tols self obj.
Proof.
  intros tols self obj S O W. unfold combined. pose (I := fun ob t => forall c, counts c -> exists e N, (-1074 <= e)%Z /\ N < 2 ^ 53 * bpow radix2 e /\ inv e c N ob t).
  assert (H : forall ob t, Forall (fun p => Forall double (p_at p) /\ clear tols (p_at p)) ob -> (length self <= length t)%nat -> I ob t -> comb_loop machine tols self ob t = comb_loop exact tols self ob t).
  { induction ob as [|o ob IH]; intros t Fo L J; [reflexivity|]. inversion Fo as [|? ? [Do Co] Fo']; subst. cbn [comb_loop]. rewrite first_near_clear by assumption. destruct (first_near exact tols o self) as [j|] eqn:E.
    - apply first_near_lt in E. assert (Sp : exists l1 p l2, t = l1 ++ p :: l2 /\ length l1 = j). { destruct (nth_error t j) as [p|] eqn:Ep; [|apply nth_error_None in Ep; lia]. destruct (nth_error_split t j Ep) as (l1 & l2 & ? & ?). eauto. }
      destruct Sp as (l1 & p & l2 & Et & Lj). assert (X : add_at machine j o t = add_at exact j o t). { apply (add_exact o j t l1 p l2 Et Lj). intros c C. destruct (J c C) as (e & N & e0 & T & V). rewrite Et in V. eapply inv_add; eauto. }
      rewrite <- X. destruct (add_at_split machine o t j ltac:(lia)) as (m1 & q & m2 & Et' & Ea). rewrite Ea. apply IH; [exact Fo'| |].
      + rewrite Et' in L. rewrite app_length in *. cbn in *. lia.
      + intros c C. destruct (J c C) as (e & N & e0 & T & V). exists e, N. split; [exact e0|]. split; [exact T|]. rewrite Et' in V. eapply inv_add; eauto.
    - apply IH; [exact Fo'|rewrite app_length; lia|]. intros c C. destruct (J c C) as (e & N & e0 & T & V). exists e, N. split; [exact e0|]. split; [exact T|]. apply inv_app, V. }
  apply H; [exact O|lia|]. intros c C. destruct (W c C) as (e & e0 & U1 & U2 & T). exists e, (total c self + total c obj). split; [exact e0|]. split; [exact T|]. split; [exact U2|]. split; [exact U1|reflexivity].
Qed.
Print Assumptions C105_same.
Example C105_same_ex : let d := [mkPoint [1; 0; 1 / 2] 100 1000 30] in let t := [/ 1024; / 1024; / 1024] in
  Forall (fun p => Forall double (p_at p)) d /\ Forall (fun p => Forall double (p_at p) /\ clear t (p_at p)) d /\ Forall double t /\ (forall c, counts c -> whole c d d).
Proof.
  assert (D : forall m e x, (Z.abs m < 2 ^ 53)%Z -> (-1074 <= e)%Z -> x = IZR m * bpow radix2 e -> double x) by (intros m e x M E ->; apply dyadic_double; assumption).
  assert (A : Forall double [1; 0; 1 / 2]) by (repeat constructor; [apply (D 1%Z 0%Z)|apply (D 0%Z 0%Z)|apply (D 1%Z (-1)%Z)]; try lia; cbn; lra).
  intros d t. split; [constructor; [exact A|constructor]|]. split; [constructor; [split; [exact A|]|constructor]|].
  - cbn. repeat split; [right; rewrite Rabs_right; lra|left; reflexivity|right; rewrite Rabs_right; lra].
  - split; [repeat constructor; (apply (D 1%Z (-10)%Z); try lia; cbn; lra)|]. intros c C. exists 0%Z. split; [lia|].
    assert (U : Forall (units 0 c) d). { constructor; [|constructor]. destruct C as [->|[->| ->]]; [exists 100%Z|exists 1000%Z|exists 30%Z]; (split; [lia|cbn; lra]). }
    split; [exact U|]. split; [exact U|]. destruct C as [->|[->| ->]]; cbn; lra.
Qed.
Example C105_bound_ex : Forall (nonneg p_time) [mkPoint [1] 5 1 (rnd (1 / 10)); mkPoint [2] 5 1 (rnd (2 / 10))].
Proof.
  assert (N : forall x, 0 <= x -> 0 <= rnd x /\ double (rnd x)). { intros x H. split; [rewrite <- rnd_zero; apply rnd_mono, H|]. apply generic_format_round; [apply FLT_exp_valid; reflexivity|apply valid_rnd_N]. }
  constructor; [apply (N (1 / 10)); lra|]. constructor; [apply (N (2 / 10)); lra|constructor].
Qed.

(** The default tolerance is 0.0005: of points as far apart as that in decimals, those at 1 and 1.0005 are merged and those at 2 and 2.0005 are not. *)
Lemma tol_bounds : 5 / 10000 - 1 / 1000000000000000000 <= rnd (5 / 10000) <= 5 / 10000 + 1 / 1000000000000000000.
Proof.
  assert (E := rnd_error (5 / 10000)). assert (T := tiny 1). assert (bpow radix2 (-900) <= 1) by (change 1 with (bpow radix2 0); apply bpow_le; lia). specialize (T H). unfold u in T. rewrite (Rabs_right (5 / 10000)) in E by lra.
  assert (K : 2 ^ 53 = 9007199254740992) by (rewrite (pow_IZR 2 53); reflexivity). rewrite K in *. assert (Q : 0 < bpow radix2 (-1075)) by apply bpow_gt_0. apply Rabs_le_inv in E. lra.
Qed.
Lemma P60_small z : (Z.abs z < 2 ^ 53)%Z -> rnd (P60 z) = P60 z.
Proof. intros H. apply rnd_double, dyadic_double; [exact H|lia]. Qed.
Theorem C105_tolerance_refuted : let t := rnd (5 / 10000) in forall p q r s, p_at p = [1] -> p_at q = [rnd (10005 / 10000)] -> p_at r = [2] -> p_at s = [rnd (20005 / 10000)] ->
  combined machine [t] [p] [q] = [add_counts machine p q] /\ combined machine [t] [r] [s] = [r; s].
Proof.
  intros t p q r s P Q Rr S. assert (T := tol_bounds). fold t in T. assert (P6 : bpow radix2 (-60) = / 1152921504606846976) by reflexivity.
  assert (A : rnd (10005 / 10000) = P60 (4505851427184181 * 2 ^ 8)) by (apply (literal_is 10005 10000); vm_compute; reflexivity || discriminate).
  assert (B : rnd (20005 / 10000) = P60 (4504725527277339 * 2 ^ 9)) by (apply (literal_is 20005 10000); vm_compute; reflexivity || discriminate).
  assert (O : 1 = P60 (4503599627370496 * 2 ^ 8)) by (unfold P60; rewrite P6; cbn; lra). assert (W : 2 = P60 (4503599627370496 * 2 ^ 9)) by (unfold P60; rewrite P6; cbn; lra).
  assert (M : forall z, (Z.abs z < 2 ^ 53)%Z -> machine (P60 z) = P60 z) by exact P60_small. unfold combined. cbn [comb_loop first_near]. rewrite P, Q, Rr, S. cbn [near]. rewrite A, B. split.
  - replace (1 - P60 (4505851427184181 * 2 ^ 8)) with (P60 (4503599627370496 * 2 ^ 8 - 4505851427184181 * 2 ^ 8)) by (rewrite <- P60_sub, <- O; reflexivity). rewrite M by (vm_compute; reflexivity).
    destruct (Rle_dec _ _) as [_|N]; [reflexivity|exfalso; apply N]. unfold P60. rewrite P6. apply Rabs_le. cbn [Z.mul Z.sub Z.pow Z.pow_pos Pos.iter Z.add Z.opp]. vm_compute Z.pos_sub. lra.
  - replace (2 - P60 (4504725527277339 * 2 ^ 9)) with (P60 (4503599627370496 * 2 ^ 9 - 4504725527277339 * 2 ^ 9)) by (rewrite <- P60_sub, <- W; reflexivity). rewrite M by (vm_compute; reflexivity).
    destruct (Rle_dec _ _) as [N|_]; [exfalso|reflexivity]. unfold P60 in N. rewrite P6 in N. apply Rabs_le_inv in N. revert N. vm_compute Z.sub. intros N. lra.
Qed.
Print Assumptions C105_tolerance_refuted.

(** The time of three datasets depends on the order in which they are combined: 0.1, 0.2 and 0.3 seconds. *)
Theorem C105_order_refuted : exists d1 d2 d3 : list point, (forall d, In d [d1; d2; d3] -> Forall (nonneg p_time) d) /\
  total p_time (combined machine [0] (combined machine [0] d1 d2) d3) <> total p_time (combined machine [0] d1 (combined machine [0] d2 d3)).
Proof.
  set (pt := fun x => mkPoint [1] 5 10 (rnd x)). exists [pt (1 / 10)], [pt (2 / 10)], [pt (3 / 10)].
  assert (N : forall x, 0 <= x -> Forall (nonneg p_time) [pt x]). { intros x H. constructor; [|constructor]. split; cbn; [rewrite <- rnd_zero; apply rnd_mono, H|]. apply generic_format_round; [apply FLT_exp_valid; reflexivity|apply valid_rnd_N]. }
  split; [intros d [<-|[<-|[<-|[]]]]; apply N; lra|].
  assert (M : forall p q, p_at p = [1] -> p_at q = [1] -> combined machine [0] [p] [q] = [add_counts machine p q]). { intros p q P Q. unfold combined. cbn [comb_loop first_near]. rewrite P, Q. cbn [near]. destruct (Rle_dec _ _) as [_|X]; [reflexivity|exfalso; apply X]. replace (1 - 1) with 0 by ring. unfold machine. rewrite rnd_zero, Rabs_R0. lra. }
  rewrite !M by reflexivity. cbn [total add_counts p_time pt]. unfold machine.
  rewrite (literal_is 1 10 7205759403792794 4), (literal_is 2 10 7205759403792794 5), (literal_is 3 10 5404319552844595 6) by (vm_compute; reflexivity || discriminate).
  rewrite !P60_add. rewrite (P60_rnd _ 5404319552844596 6) by (vm_compute; reflexivity). rewrite P60_add. rewrite (P60_rnd _ 5404319552844596 7) by (vm_compute; reflexivity).
  rewrite (P60_rnd _ 4503599627370496 7) by (vm_compute; reflexivity). rewrite P60_add. rewrite (P60_rnd _ 5404319552844595 7) by (vm_compute; reflexivity).
  assert (L := P60_lt (5404319552844595 * 2 ^ 7) (5404319552844596 * 2 ^ 7) eq_refl). lra.
Qed.
Print Assumptions C105_order_refuted.

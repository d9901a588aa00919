(** C114: the background from the lowest intensities in floating-point arithmetic. *)
From Coq Require Import List Arith ZArith Reals Lra Lia Psatz Permutation.
From Flocq Require Import Core Plus_error Relative.
From Verif Require Import Base EnergyFloatModel BinFloatProps PointsFloatModel PointsFloatProps BgFloatModel.
Import ListNotations.
Local Open Scope R_scope.

Definition rsum (l : list R) : R := fold_right Rplus 0 l.
(** A way of adding that uses every entry once. *)
Definition adds (order : list R -> sum_tree) : Prop := forall l, l <> [] -> Permutation (leaves (order l)) l.

Lemma rsum_app a b : rsum (a ++ b) = rsum a + rsum b.
Proof. unfold rsum. induction a as [|x a IH]; cbn; [ring|]. rewrite IH. ring. Qed.
Lemma rsum_perm a b : Permutation a b -> rsum a = rsum b.
Proof. induction 1; cbn in *; unfold rsum in *; cbn; lra. Qed.
Lemma rsum_pos l : Forall (fun x => 0 <= x) l -> 0 <= rsum l.
Proof. unfold rsum. induction 1; cbn; lra. Qed.
Lemma plus_rel x y : double x -> double y -> Rabs (rnd (x + y) - (x + y)) <= u * Rabs (x + y).
Proof.
  intros X Y. assert (P : Prec_gt_0 53) by reflexivity. destruct (FLT_plus_error_N_ex radix2 (-1074) 53 (fun n => negb (Z.even n)) x y X Y) as (eps & B & E).
  change (rnd (x + y) = (x + y) * (1 + eps)) in E. rewrite E. replace ((x + y) * (1 + eps) - (x + y)) with (eps * (x + y)) by ring. rewrite Rabs_mult. apply Rmult_le_compat_r; [apply Rabs_pos|].
  apply Rle_trans with (1 := B). replace (u_ro radix2 53) with u; [|unfold u_ro, u; cbn; lra]. assert (U := u_small). apply (Rmult_le_reg_r (1 + u)); [lra|]. unfold Rdiv. rewrite Rmult_assoc, Rinv_l by lra. nra.
Qed.
Lemma tree_nonempty t : (1 <= List.length (leaves t))%nat.
Proof. induction t; cbn; [lia|]. rewrite app_length. lia. Qed.
Lemma growth a b : (a <= b)%nat -> 1 <= (1 + u) ^ a <= (1 + u) ^ b.
Proof. intros H. assert (U := u_small). split; [apply pow_R1_Rle; lra|apply Rle_pow; [lra|exact H]]. Qed.
Lemma total_near t : Forall double (leaves t) -> Forall (fun x => 0 <= x) (leaves t) ->
  double (total t) /\ 0 <= total t /\ Rabs (total t - rsum (leaves t)) <= ((1 + u) ^ (List.length (leaves t) - 1) - 1) * rsum (leaves t).
Proof.
  assert (U := u_small). induction t as [x|s IHs t IHt]; cbn [leaves total]; intros D N.
  - inversion D; inversion N; subst. split; [assumption|]. split; [assumption|]. cbn. rewrite Rminus_diag_eq, Rabs_R0 by lra. lra.
  - apply Forall_app in D, N. destruct D as [D1 D2], N as [N1 N2]. destruct (IHs D1 N1) as (A1 & B1 & C1). destruct (IHt D2 N2) as (A2 & B2 & C2). split; [apply generic_format_round; [apply FLT_exp_valid; reflexivity|apply valid_rnd_N]|].
    split; [apply rnd_nonneg; lra|]. rewrite rsum_app, app_length. assert (P1 := rsum_pos _ N1). assert (P2 := rsum_pos _ N2). assert (K1 := tree_nonempty s). assert (K2 := tree_nonempty t).
    set (k := (List.length (leaves s) + List.length (leaves t) - 2)%nat). replace (List.length (leaves s) + List.length (leaves t) - 1)%nat with (S k) by (unfold k; lia).
    assert (G1 := growth (List.length (leaves s) - 1) k ltac:(unfold k; lia)). assert (G2 := growth (List.length (leaves t) - 1) k ltac:(unfold k; lia)). assert (E := plus_rel _ _ A1 A2). rewrite (Rabs_right (total s + total t)) in E by lra.
    cbn [pow]. set (g := (1 + u) ^ k) in *. set (g1 := (1 + u) ^ _) in G1, C1. set (g2 := (1 + u) ^ _) in G2, C2. clearbody g g1 g2. set (x := total s) in *. set (y := total t) in *. clearbody x y. set (p := rsum (leaves s)) in *. set (q := rsum (leaves t)) in *. clearbody p q.
    assert (C1' : (g1 - 1) * p <= (g - 1) * p) by (apply Rmult_le_compat_r; lra). assert (C2' : (g2 - 1) * q <= (g - 1) * q) by (apply Rmult_le_compat_r; lra).
    apply Rabs_le_inv in C1, C2, E. assert (H : x + y <= g * (p + q)) by lra. assert (u * (x + y) <= u * (g * (p + q))) by (apply Rmult_le_compat_l; lra). apply Rabs_le. lra.
Qed.
Lemma growth_bound k : INR k <= 10 ^ 7 -> (1 + u) ^ k - 1 <= (INR k + 1) * u.
Proof.
  intros K. assert (U := u_small). assert (k0 := pos_INR k). assert (ku : INR k * u <= / 10 ^ 8). { apply Rle_trans with (10 ^ 7 * / 10 ^ 15); [apply Rmult_le_compat; lra|lra]. }
  assert (I : forall n, (n <= k)%nat -> (1 + u) ^ n * (1 - INR n * u) <= 1).
  { induction n as [|n IH]; intros H; [cbn; lra|]. rewrite S_INR. cbn [pow]. assert (Hn := IH ltac:(lia)). assert (g0 : 0 < (1 + u) ^ n) by (apply pow_lt; lra). assert (n0 := pos_INR n).
    apply Rle_trans with (2 := Hn). replace ((1 + u) * (1 + u) ^ n * (1 - (INR n + 1) * u)) with ((1 + u) ^ n * ((1 + u) * (1 - (INR n + 1) * u))) by ring. apply Rmult_le_compat_l; [lra|]. assert (0 <= (INR n + 1) * (u * u)) by (apply Rmult_le_pos; [lra|apply Rmult_le_pos; lra]). nra. }
  assert (J := I k (le_n _)). set (g := (1 + u) ^ k) in *. clearbody g. set (a := INR k * u) in *. assert (A0 : 0 <= a) by (apply Rmult_le_pos; lra).
  assert (ka : (INR k + 1) * a <= 1). { unfold a. apply Rle_trans with ((10 ^ 7 + 1) * (/ 10 ^ 8)); [apply Rmult_le_compat; fold a; lra|lra]. }
  assert (g <= 1 + (INR k + 1) * u); [|lra]. apply (Rmult_le_reg_r (1 - a)); [lra|]. apply Rle_trans with (1 := J). replace ((INR k + 1) * u) with (a + u) by (unfold a; ring).
  assert (a * a + u * a <= u). { replace (a * a + u * a) with (u * ((INR k + 1) * a)) by (unfold a; ring). rewrite <- (Rmult_1_r u) at 2. apply Rmult_le_compat_l; lra. } lra.
Qed.

(** Sorting. *)
Fixpoint sortedb (l : list R) : Prop := match l with [] => True | x :: r => (forall y, In y r -> x <= y) /\ sortedb r end.
Lemma insert_perm x l : Permutation (insert x l) (x :: l).
Proof. induction l as [|y l IH]; cbn; [reflexivity|]. destruct (Rle_dec x y); [reflexivity|]. rewrite IH. apply perm_swap. Qed.
Lemma insert_sorted x l : sortedb l -> sortedb (insert x l).
Proof.
  induction l as [|y l IH]; cbn; [split; [intros z []|exact I]|]. intros [A B]. destruct (Rle_dec x y) as [H|H]; cbn.
  - split; [|split; assumption]. intros z [<-|Z]; [exact H|]. apply A in Z. lra.
  - split; [|apply IH, B]. intros z Z. apply (Permutation_in _ (insert_perm x l)) in Z. destruct Z as [<-|Z]; [lra|apply A, Z].
Qed.
Lemma ascending_perm l : Permutation (ascending l) l.
Proof. induction l as [|x l IH]; cbn; [constructor|]. rewrite insert_perm. constructor. exact IH. Qed.
Lemma ascending_sorted l : sortedb (ascending l).
Proof. induction l as [|x l IH]; cbn; [exact I|]. apply insert_sorted, IH. Qed.
Lemma sorted_unique : forall l m, sortedb l -> sortedb m -> Permutation l m -> l = m.
Proof.
  induction l as [|x l IH]; intros [|y m] A B P; [reflexivity|apply Permutation_nil in P; discriminate|apply Permutation_sym, Permutation_nil in P; discriminate|].
  destruct A as [A1 A2], B as [B1 B2]. assert (E : x = y).
  { assert (X : In x (y :: m)) by (apply (Permutation_in _ P); left; reflexivity). assert (Y : In y (x :: l)) by (apply (Permutation_in _ (Permutation_sym P)); left; reflexivity).
    destruct X as [X|X]; [symmetry; exact X|]. destruct Y as [Y|Y]; [exact Y|]. apply Rle_antisym; auto. }
  subst y. f_equal. apply IH; try assumption. exact (Permutation_cons_inv P).
Qed.
Lemma not_negative_in l x : In x (not_negative l) <-> In x l /\ 0 <= x.
Proof. induction l as [|y l IH]; cbn; [tauto|]. destruct (Rle_dec 0 y); cbn; rewrite IH; split; intros H; intuition (subst; try lra; auto). Qed.
Lemma not_negative_perm l m : Permutation l m -> Permutation (not_negative l) (not_negative m).
Proof.
  induction 1 as [|x l m P IH|x y l|l m n P IH Q JH]; cbn; [constructor| | |exact (Permutation_trans IH JH)].
  - destruct (Rle_dec 0 x); [constructor|]; exact IH.
  - destruct (Rle_dec 0 x), (Rle_dec 0 y); try reflexivity. apply perm_swap.
Qed.
Lemma sorted_split n : forall l a b, sortedb l -> In a (firstn n l) -> In b (skipn n l) -> a <= b.
Proof.
  induction n as [|n IH]; intros [|x l] a b S A B; cbn in A, B; try contradiction. destruct S as [S1 S2]. destruct A as [<-|A]; [|exact (IH l a b S2 A B)].
  apply S1. rewrite <- (firstn_skipn n l). apply in_or_app. right. exact B.
Qed.

(** The points averaged for [v] percent: the number of them, rounded as in C107, of the lowest intensities that are not negative; for a
    negative number all but that many of the highest. *)
Definition lowest (v : R) (l low : list R) : Prop := exists rest, Permutation (low ++ rest) (not_negative l) /\ (forall a b, In a low -> In b rest -> a <= b) /\
  ((0 <= percent_points (List.length (not_negative l)) v)%Z -> List.length low = Nat.min (Z.to_nat (percent_points (List.length (not_negative l)) v)) (List.length (not_negative l))) /\
  ((percent_points (List.length (not_negative l)) v < 0)%Z -> List.length low = (List.length (not_negative l) - Z.to_nat (- percent_points (List.length (not_negative l)) v))%nat).
Lemma average_is order v l : exists low, lowest v l low /\ percent_background order v l = average order low /\ low = firstn (List.length low) (ascending (not_negative l)).
Proof.
  unfold percent_background, first_points. set (n := percent_points _ v). set (k := Z.to_nat _). exists (firstn k (ascending (not_negative l))). split; [|split; [reflexivity|]].
  - exists (skipn k (ascending (not_negative l))). split; [rewrite firstn_skipn; apply ascending_perm|]. split; [intros a b; apply sorted_split, ascending_sorted|]. fold n. split; intros H; rewrite firstn_length, (Permutation_length (ascending_perm _)); unfold k;
      destruct (Z.ltb_spec n 0); try rewrite (Permutation_length (ascending_perm _)); lia.
  - rewrite firstn_length. destruct (Nat.min_spec k (List.length (ascending (not_negative l)))) as [[H ->]|[H ->]]; [reflexivity|]. rewrite firstn_all. apply firstn_all2, H.
Qed.

(** C114.  The background is the mean of the lowest intensities, up to one unit more than there are points averaged; without points it is nan. *)
Theorem C114_mean : forall order v l, adds order -> (forall x, In x l -> double x) -> exists low, lowest v l low /\ (low = [] <-> percent_background order v l = None) /\
  forall b, percent_background order v l = Some b -> INR (List.length low) <= 10 ^ 7 ->
  Rabs (b - rsum low / INR (List.length low)) <= (INR (List.length low) + 1) * / 2 ^ 53 * (rsum low / INR (List.length low)) + bpow radix2 (-1075).
Proof.
  intros order v l O D. destruct (average_is order v l) as (low & L & E & _). exists low. split; [exact L|]. rewrite E. unfold average. destruct low as [|x0 low0] eqn:El; [split; [tauto|discriminate]|]. rewrite <- El in *.
  assert (NE : low <> []) by (rewrite El; discriminate). split; [split; [contradiction|discriminate]|]. intros b [=<-] K. fold u.
  assert (M : forall x, In x low -> In x l /\ 0 <= x). { intros x I. destruct L as (rest & P & _). apply not_negative_in, (Permutation_in _ P), in_or_app. left. exact I. }
  assert (PO := O low NE). assert (Dl : Forall double (leaves (order low))) by (apply Forall_forall; intros x I; apply D, M, (Permutation_in _ PO), I). assert (Nl : Forall (fun x => 0 <= x) (leaves (order low))) by (apply Forall_forall; intros x I; apply M, (Permutation_in _ PO), I).
  destruct (total_near _ Dl Nl) as (_ & T0 & T). assert (S0 := rsum_pos _ Nl). rewrite (rsum_perm _ _ PO) in T, S0. rewrite (Permutation_length PO) in T.
  assert (k1 : (1 <= List.length low)%nat) by (rewrite El; cbn; lia). set (k := List.length low) in *. assert (G := growth_bound k K). assert (U := u_small).
  replace k with (S (k - 1)) in G at 1 by lia. cbn [pow] in G. set (g := (1 + u) ^ (k - 1)) in *. assert (g1 : 1 <= g) by (apply pow_R1_Rle; lra). clearbody g.
  assert (k0 : 1 <= INR k) by (apply (le_INR 1); exact k1). set (t := total (order low)) in *. set (s := rsum low) in *. clearbody t s. assert (R := rnd_error (t / INR k)). fold u in R.
  assert (Q0 : 0 <= t / INR k) by (apply Rmult_le_pos; [exact T0|apply Rlt_le, Rinv_0_lt_compat; lra]). rewrite (Rabs_right (t / INR k)) in R by lra.
  assert (T' : Rabs (t / INR k - s / INR k) <= (g - 1) * (s / INR k)). { replace (t / INR k - s / INR k) with ((t - s) * / INR k) by (field; lra). rewrite Rabs_mult, (Rabs_right (/ INR k)) by (apply Rle_ge, Rlt_le, Rinv_0_lt_compat; lra). unfold Rdiv. rewrite <- Rmult_assoc. apply Rmult_le_compat_r; [apply Rlt_le, Rinv_0_lt_compat; lra|exact T]. }
  assert (q0 : 0 <= s / INR k) by (apply Rmult_le_pos; [exact S0|apply Rlt_le, Rinv_0_lt_compat; lra]). set (a := t / INR k) in *. set (m := s / INR k) in *. clearbody a m. apply Rabs_le_inv in R, T'.
  assert (a <= g * m) by lra. assert (u * a <= u * (g * m)) by (apply Rmult_le_compat_l; lra). assert (F : ((1 + u) * g - 1) * m <= (INR k + 1) * u * m) by (apply Rmult_le_compat_r; lra). apply Rabs_le. lra.
Qed.
Print Assumptions C114_mean.

(** C114.  It does not depend on the order of the points. *)
Theorem C114_order : forall order v l m, Permutation l m -> percent_background order v l = percent_background order v m.
Proof.
  intros order v l m P. unfold percent_background. assert (Q := not_negative_perm _ _ P). rewrite (Permutation_length Q). replace (ascending (not_negative m)) with (ascending (not_negative l)); [reflexivity|].
  apply sorted_unique; try apply ascending_sorted. rewrite !ascending_perm. exact Q.
Qed.
Print Assumptions C114_order.

(** C114.  For whole numbers whose sum is below 2^53 it is the mean rounded once, so it lies between the lowest and the highest of the intensities averaged. *)
Definition whole (x : R) : Prop := exists n : nat, x = INR n.
Lemma whole_double x : whole x -> x < 2 ^ 53 -> double x.
Proof.
  intros (n & ->) H. rewrite INR_IZR_INZ in *. replace (IZR (Z.of_nat n)) with (IZR (Z.of_nat n) * bpow radix2 0) by (cbn; ring). apply dyadic_double; [|lia]. rewrite Z.abs_eq by lia. apply lt_IZR. replace (IZR (2 ^ 53)) with (2 ^ 53) by (change (2 ^ 53)%Z with (9007199254740992)%Z; lra). exact H.
Qed.
Lemma whole_sum l : Forall whole l -> whole (rsum l).
Proof. unfold rsum. induction 1 as [|x l (n & ->) _ (m & E)]; cbn; [exists 0%nat; reflexivity|]. exists (n + m)%nat. rewrite E, plus_INR. reflexivity. Qed.
Lemma whole_pos l : Forall whole l -> 0 <= rsum l.
Proof. intros H. destruct (whole_sum l H) as (n & ->). apply pos_INR. Qed.
Lemma whole_total t : Forall whole (leaves t) -> rsum (leaves t) < 2 ^ 53 -> total t = rsum (leaves t).
Proof.
  induction t as [x|s IHs t IHt]; cbn [leaves total]; intros W B; [cbn; ring|]. apply Forall_app in W. destruct W as [W1 W2]. rewrite rsum_app in *. assert (P1 := whole_pos _ W1). assert (P2 := whole_pos _ W2).
  rewrite IHs, IHt by (assumption || lra). apply rnd_double, whole_double; [|exact B]. destruct (whole_sum _ W1) as (n & ->), (whole_sum _ W2) as (m & ->). exists (n + m)%nat. rewrite plus_INR. reflexivity.
Qed.
Lemma rsum_bounds lo hi l : (forall x, In x l -> lo <= x <= hi) -> INR (List.length l) * lo <= rsum l <= INR (List.length l) * hi.
Proof. unfold rsum. induction l as [|x l IH]; intros H; cbn [List.length fold_right]; [cbn; lra|]. rewrite S_INR. assert (A := H x (or_introl eq_refl)). assert (B := IH (fun y I => H y (or_intror I))). lra. Qed.
Theorem C114_whole : forall order v l, adds order -> (forall x, In x l -> 0 <= x -> whole x) -> rsum (not_negative l) < 2 ^ 53 -> exists low, lowest v l low /\
  forall b, percent_background order v l = Some b -> b = rnd (rsum low / INR (List.length low)) /\ (forall lo hi, In lo low -> In hi low -> (forall x, In x low -> lo <= x <= hi) -> lo <= b <= hi).
Proof.
  intros order v l O W B. destruct (average_is order v l) as (low & L & E & _). exists low. split; [exact L|]. rewrite E. intros b Eb. unfold average in Eb. destruct low as [|x0 low0] eqn:El; [discriminate|]. rewrite <- El in *. assert (NE : low <> []) by (rewrite El; discriminate). injection Eb as <-.
  assert (M : forall x, In x low -> In x l /\ 0 <= x). { intros x I. destruct L as (rest & P & _). apply not_negative_in, (Permutation_in _ P), in_or_app. left. exact I. }
  assert (Wl : Forall whole low) by (apply Forall_forall; intros x I; destruct (M x I); apply W; assumption). assert (PO := O low NE). assert (Wo : Forall whole (leaves (order low))) by (apply Forall_forall; intros x I; rewrite Forall_forall in Wl; apply Wl, (Permutation_in _ PO), I).
  assert (Bs : rsum low < 2 ^ 53). { destruct L as (rest & P & _). rewrite <- (rsum_perm _ _ P), rsum_app in B. assert (0 <= rsum rest); [|lra]. apply rsum_pos, Forall_forall. intros x I. apply (not_negative_in l), (Permutation_in _ P), in_or_app. right. exact I. }
  rewrite whole_total by (try exact Wo; rewrite (rsum_perm _ _ PO); exact Bs). rewrite (rsum_perm _ _ PO). split; [reflexivity|]. intros lo hi Ilo Ihi H.
  assert (k0 : 0 < INR (List.length low)) by (apply (lt_INR 0); rewrite El; cbn; lia). assert (RB := rsum_bounds lo hi low H).
  assert (Dd : forall x, In x low -> double x). { intros x I. apply whole_double; [rewrite Forall_forall in Wl; apply Wl, I|]. apply Rle_lt_trans with (2 := Bs). destruct (in_split _ _ I) as (l1 & l2 & ->). rewrite rsum_app. apply Forall_app in Wl. destruct Wl as [Wa Wb]. inversion Wb; subst. assert (0 <= rsum l1) by (apply whole_pos; assumption). assert (0 <= rsum l2) by (apply whole_pos; assumption). cbn [rsum fold_right]. unfold rsum in *. cbn. lra. }
  assert (Elo := rnd_double lo (Dd lo Ilo)). assert (Ehi := rnd_double hi (Dd hi Ihi)). split; [rewrite <- Elo|rewrite <- Ehi]; apply rnd_mono; apply (Rmult_le_reg_r (INR (List.length low))); try exact k0; unfold Rdiv; rewrite Rmult_assoc, Rinv_l by lra; lra.
Qed.
Print Assumptions C114_whole.

(** C114.  One point: its intensity exactly. *)
Theorem C114_one : forall order v l x, adds order -> (forall y, In y l -> double y) -> lowest v l [x] -> percent_points (List.length (not_negative l)) v = 1%Z -> percent_background order v l = Some x /\ forall y, In y l -> 0 <= y -> x <= y.
Proof.
  intros order v l x O D (rest & P & LE & _) N. destruct (average_is order v l) as (low & (rest' & P' & LE' & Len & _) & E & F). rewrite N in Len. specialize (Len ltac:(lia)).
  assert (L1 : (1 <= List.length (not_negative l))%nat) by (rewrite <- (Permutation_length P); cbn; lia). change (Z.to_nat 1) with 1%nat in Len. rewrite Nat.min_l in Len by lia. rewrite Len in F.
  assert (X : ascending (not_negative l) = x :: ascending rest). { apply sorted_unique; [apply ascending_sorted| |rewrite !ascending_perm; apply Permutation_sym; exact P]. cbn. split; [|apply ascending_sorted]. intros y I. apply LE; [left; reflexivity|]. exact (Permutation_in _ (ascending_perm rest) I). }
  rewrite X in F. cbn in F. subst low. rewrite E. unfold average. cbn [List.length]. assert (PO := O [x] ltac:(discriminate)).
  assert (T : total (order [x]) = x). { destruct (order [x]) as [y|s t]; cbn in *; [apply Permutation_length_1_inv in PO || (apply Permutation_sym, Permutation_length_1_inv in PO); congruence|]. apply Permutation_length in PO. rewrite app_length in PO. assert (A := tree_nonempty s). assert (B := tree_nonempty t). cbn in PO. lia. }
  rewrite T. cbn [INR]. assert (IX : In x l). { apply (not_negative_in l x). apply (Permutation_in _ P). left. reflexivity. } split; [unfold Rdiv; rewrite Rinv_1, Rmult_1_r, (rnd_double x (D x IX)); reflexivity|].
  intros y Y Y0. assert (IY : In y (not_negative l)) by (apply not_negative_in; split; assumption). apply (Permutation_in _ (Permutation_sym P)) in IY. destruct IY as [<-|IY]; [lra|]. apply LE; [left; reflexivity|exact IY].
Qed.
Print Assumptions C114_one.

(** From left to right. *)
Definition left_to_right (l : list R) : sum_tree := match l with [] => Leaf 0 | x :: r => fold_left (fun t y => Plus t (Leaf y)) r (Leaf x) end.
Lemma left_to_right_adds : adds left_to_right.
Proof.
  intros [|x r] N; [contradiction|]. cbn. assert (H : forall r t, leaves (fold_left (fun t y => Plus t (Leaf y)) r t) = leaves t ++ r). { induction r0 as [|y r0 IH]; intros t; cbn; [rewrite app_nil_r; reflexivity|]. rewrite IH. cbn. rewrite <- app_assoc. reflexivity. }
  rewrite H. reflexivity.
Qed.
(** Three points of intensity 0.1: the background of all of them is more than 0.1, so what is left of each point is negative. *)
Theorem C114_bounded_refuted : exists order l b, adds order /\ l = [rnd (1 / 10); rnd (1 / 10); rnd (1 / 10)] /\ percent_background order (IZR 100) l = Some b /\ forall x, In x l -> x < b.
Proof.
  assert (X : rnd (1 / 10) = P60 (7205759403792794 * 2 ^ 4)) by (apply (literal_is 1 10); vm_compute; reflexivity || discriminate).
  assert (X0 : 0 <= rnd (1 / 10)) by (apply rnd_nonneg; lra).
  exists left_to_right, [rnd (1 / 10); rnd (1 / 10); rnd (1 / 10)]. eexists. split; [exact left_to_right_adds|]. split; [reflexivity|]. split.
  - unfold percent_background. cbn [not_negative]. destruct (Rle_dec 0 (rnd (1 / 10))); [|contradiction]. cbn [List.length]. rewrite (C107_quarters 3 100) by (first [(cbn; tauto) | (cbn [INR]; lra)]). cbn [ascending insert]. destruct (Rle_dec (rnd (1 / 10)) (rnd (1 / 10))) as [|Nle]; [|destruct Nle; apply Rle_refl]. cbn [insert]. destruct (Rle_dec (rnd (1 / 10)) (rnd (1 / 10))) as [|Nle]; [|destruct Nle; apply Rle_refl]. change (Z.of_nat 3 * 100 / 100)%Z with 3%Z.
    change (first_points 3 [rnd (1 / 10); rnd (1 / 10); rnd (1 / 10)]) with [rnd (1 / 10); rnd (1 / 10); rnd (1 / 10)]. unfold average. cbn [left_to_right fold_left total List.length]. reflexivity.
  - assert (B : rnd (rnd (rnd (rnd (1 / 10) + rnd (1 / 10)) + rnd (1 / 10)) / INR 3) = IZR 7205759403792795 * bpow radix2 (-56)).
    { rewrite X, P60_add. p60 (7205759403792794 * 2 ^ 4 + 7205759403792794 * 2 ^ 4)%Z 7205759403792794%Z 5%Z. rewrite P60_add. p60 (7205759403792794 * 2 ^ 5 + 7205759403792794 * 2 ^ 4)%Z 5404319552844596%Z 6%Z.
      assert (V : P60 (5404319552844596 * 2 ^ 6) / INR 3 = 21617278211378384 / 3 * bpow radix2 (-56)). { unfold P60. change (-56)%Z with (-60 + 4)%Z. rewrite bpow_plus. cbn [INR]. change (bpow radix2 4) with 16. change (5404319552844596 * 2 ^ 6)%Z with (21617278211378384 * 16)%Z. rewrite mult_IZR. lra. }
      rewrite V. assert (b0 := bpow_gt_0 radix2 (-56)). apply rnd_is; [lia| |].
      - rewrite Rabs_right by (apply Rle_ge, Rmult_le_pos; lra). change (-56 + 52)%Z with (52 + -56)%Z. change (-56 + 53)%Z with (53 + -56)%Z. rewrite !(bpow_plus radix2 _ (-56)). change (bpow radix2 52) with 4503599627370496. change (bpow radix2 53) with 9007199254740992. split; [apply Rmult_le_compat_r; lra|apply Rmult_lt_compat_r; lra].
      - left. rewrite Rmult_assoc, <- bpow_plus. change (bpow radix2 (-56 + - -56)) with 1. rewrite Rmult_1_r. apply Rabs_lt. lra. }
    rewrite B. assert (Lt : rnd (1 / 10) < IZR 7205759403792795 * bpow radix2 (-56)). { rewrite X. unfold P60. change (-56)%Z with (-60 + 4)%Z. rewrite bpow_plus. change (bpow radix2 4) with 16. assert (b0 := bpow_gt_0 radix2 (-60)). rewrite mult_IZR. change (IZR (2 ^ 4)) with 16. nra. }
    intros x [<-|[<-|[<-|[]]]]; exact Lt.
Qed.
Print Assumptions C114_bounded_refuted.

(** Four points of which half are averaged. *)
Example C114_case : exists b, percent_background left_to_right (IZR 50) [7; -1; 2; 4; 9] = Some b /\ b = 3.
Proof.
  unfold percent_background. cbn [not_negative]. destruct (Rle_dec 0 7); [|lra]. destruct (Rle_dec 0 (-1)); [lra|]. destruct (Rle_dec 0 2); [|lra]. destruct (Rle_dec 0 4); [|lra]. destruct (Rle_dec 0 9); [|lra].
  cbn [List.length]. rewrite (C107_quarters 4 50) by (first [(cbn; tauto) | (cbn [INR]; lra)]). change (Z.of_nat 4 * 50 / 100)%Z with 2%Z. cbn [ascending insert]. destruct (Rle_dec 4 9); [|lra]. cbn [insert]. destruct (Rle_dec 2 4); [|lra]. cbn [insert]. destruct (Rle_dec 7 2); [lra|]. destruct (Rle_dec 7 4); [lra|]. destruct (Rle_dec 7 9); [|lra].
  change (first_points 2 [2; 4; 7; 9]) with [2; 4]. unfold average. eexists. split; [reflexivity|]. cbn [left_to_right fold_left total List.length].
  assert (D : forall n, (n < 100)%nat -> double (INR n)). { intros k H. apply whole_double; [exists k; reflexivity|]. apply lt_INR in H. cbn in H. lra. }
  assert (D6 := D 6%nat ltac:(lia)). assert (D3 := D 3%nat ltac:(lia)). cbn in D6, D3. replace (2 + 4) with (1 + 1 + 1 + 1 + 1 + 1) by lra. rewrite (rnd_double _ D6). replace ((1 + 1 + 1 + 1 + 1 + 1) / INR 2) with (1 + 1 + 1) by (cbn; lra). rewrite (rnd_double _ D3). lra.
Qed.

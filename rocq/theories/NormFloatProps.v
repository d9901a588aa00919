(** C112: normalised intensity and error in floating-point arithmetic. *)
From Coq Require Import List Arith ZArith Reals Lra Lia Psatz.
From Flocq Require Import Core.
From Verif Require Import Base EnergyFloatModel BinFloatProps NormFloatModel.
Import ListNotations.
Local Open Scope R_scope.

(** An ordinary magnitude. *)
Definition usual (x : R) : Prop := bpow radix2 (-200) <= x <= bpow radix2 200.
(** [r] is the largest of the norms. *)
Definition is_largest (r : R) (l : list point) : Prop := (exists p, In p l /\ snd p = r) /\ forall p, In p l -> snd p <= r.

Lemma larger_ge x y : x <= larger x y /\ y <= larger x y.
Proof. unfold larger. destruct (Rle_dec x y); lra. Qed.
Lemma fold_larger l : forall x, x <= fold_left larger l x /\ (forall y, In y l -> y <= fold_left larger l x) /\ (fold_left larger l x = x \/ In (fold_left larger l x) l).
Proof.
  induction l as [|a l IH]; intros x; cbn [fold_left].
  - split; [lra|]. split; [intros y []|left; reflexivity].
  - destruct (IH (larger x a)) as (A & B & C). destruct (larger_ge x a) as [D E]. split; [lra|]. split.
    + intros y [<-|I]; [lra|apply B, I].
    + destruct C as [C|C]; [|right; right; exact C]. rewrite C. unfold larger. destruct (Rle_dec x a); [right; left; reflexivity|left; reflexivity].
Qed.
Lemma largest_ok l : l <> [] -> exists r, largest (map snd l) = Ok r /\ is_largest r l.
Proof.
  destruct l as [|p l]; [contradiction|]. intros _. cbn [map largest]. eexists. split; [reflexivity|].
  destruct (fold_larger (map snd l) (snd p)) as (A & B & C). split.
  - destruct C as [C|C]; [exists p; split; [left; reflexivity|congruence]|]. apply in_map_iff in C. destruct C as (q & E & I). exists q. split; [right; exact I|exact E].
  - intros q [<-|I]; [exact A|apply B, in_map, I].
Qed.
Lemma largest_unique r r' l : is_largest r l -> is_largest r' l -> r = r'.
Proof. intros [(p & I & <-) A] [(q & J & <-) B]. apply Rle_antisym; auto. Qed.
Lemma largest_is l r : is_largest r l -> largest (map snd l) = Ok r.
Proof.
  intros H. destruct (largest_ok l) as (r' & E & H'); [intros ->; destruct H as [(p & [] & _) _]|]. rewrite E. f_equal. exact (largest_unique _ _ _ H' H).
Qed.

(** Relative error of one rounding. *)
Lemma rel z : bpow radix2 (-900) <= Rabs z -> Rabs (rnd z - z) <= 5 / 4 * u * Rabs z.
Proof. intros H. assert (E := rnd_within (Rabs z) 1 z H ltac:(lra)). lra. Qed.
Lemma bp n m : (n <= m)%Z -> bpow radix2 n <= bpow radix2 m.
Proof. apply bpow_le. Qed.
Lemma quotient x n : bpow radix2 (-300) <= x -> usual n -> bpow radix2 (-500) <= x / n.
Proof.
  intros X [N1 N2]. assert (P := bpow_gt_0 radix2 (-200)). apply (Rmult_le_reg_r n); [lra|]. unfold Rdiv. rewrite Rmult_assoc, Rinv_l, Rmult_1_r by lra.
  apply Rle_trans with (2 := X). replace (bpow radix2 (-300)) with (bpow radix2 (-500) * bpow radix2 200) by (rewrite <- bpow_plus; reflexivity).
  apply Rmult_le_compat_l; [apply bpow_ge_0|exact N2].
Qed.
Lemma product q r : bpow radix2 (-600) <= q -> usual r -> bpow radix2 (-900) <= q * r.
Proof.
  intros X [N1 N2]. apply Rle_trans with (bpow radix2 (-600) * bpow radix2 (-200)); [rewrite <- bpow_plus; apply bp; lia|].
  apply Rmult_le_compat; try apply bpow_ge_0; assumption.
Qed.
Lemma half_at q b : bpow radix2 (b + 1) <= q -> Rabs (rnd q - q) <= 5 / 4 * u * q -> bpow radix2 b <= rnd q.
Proof.
  intros Q E. assert (U := u_small). assert (u <= / 10) by (apply Rle_trans with (1 := proj2 U); apply Rinv_le_contravar; lra).
  rewrite bpow_plus in Q. change (bpow radix2 1) with 2 in Q. assert (P := bpow_gt_0 radix2 b). apply Rabs_le_inv in E. nra.
Qed.
(** counts / norm * reference: relative error below three units. *)
Lemma scaled_rel x n r : bpow radix2 (-300) <= x -> usual n -> usual r -> Rabs (rnd (rnd (x / n) * r) - x / n * r) <= 3 * u * (x / n * r).
Proof.
  intros X N Rr. assert (Q := quotient x n X N). set (q := x / n) in *. assert (Pq : 0 < q) by (assert (P := bpow_gt_0 radix2 (-500)); lra). assert (Pr : 0 < r) by (destruct Rr; assert (P := bpow_gt_0 radix2 (-200)); lra).
  assert (E1 : Rabs (rnd q - q) <= 5 / 4 * u * q). { rewrite <- (Rabs_right q) at 3 by lra. apply rel. rewrite Rabs_right by lra. apply Rle_trans with (2 := Q). apply bp. lia. }
  assert (L : bpow radix2 (-600) <= rnd q). { apply (half_at q); [|exact E1]. apply Rle_trans with (2 := Q). apply bp. lia. }
  assert (Pd : 0 < rnd q) by (assert (P := bpow_gt_0 radix2 (-600)); lra). assert (Pp : 0 < rnd q * r) by (apply Rmult_lt_0_compat; assumption).
  assert (E2 : Rabs (rnd (rnd q * r) - rnd q * r) <= 5 / 4 * u * (rnd q * r)). { rewrite <- (Rabs_right (rnd q * r)) at 3 by lra. apply rel. rewrite Rabs_right by lra. apply product; assumption. }
  assert (U := u_small). assert (U1 : u <= / 100) by (apply Rle_trans with (1 := proj2 U); apply Rinv_le_contravar; lra).
  apply Rabs_le_inv in E1. assert (E1' : Rabs (rnd q * r - q * r) <= 5 / 4 * u * (q * r)). { apply Rabs_le. split; nra. }
  apply Rabs_le_inv in E1', E2. apply Rabs_le. assert (0 < q * r) by (apply Rmult_lt_0_compat; assumption). assert (0 <= u * (q * r)) by nra. assert (u * (u * (q * r)) <= / 100 * (u * (q * r))) by (apply Rmult_le_compat_r; lra).
  assert (M : u * (rnd q * r) <= u * (q * r) + 5 / 4 * u * (u * (q * r))) by nra. split; nra.
Qed.

Lemma usual_pos x : usual x -> 0 < x.
Proof. intros [A _]. assert (P := bpow_gt_0 radix2 (-200)). lra. Qed.
Lemma scaled_some x n r : usual n -> scaled x n r = Some (rnd (rnd (x / n) * r)).
Proof. intros N. unfold scaled. apply usual_pos in N. destruct (Req_EM_T n 0); [lra|reflexivity]. Qed.
Lemma at_point {B} (f : point -> B) l i p : nth_error l i = Some p -> nth_error (map f l) i = Some (f p).
Proof. intros H. rewrite nth_error_map, H. reflexivity. Qed.

(** C112.  The intensity of every point is counts / norm * largest norm up to three units in the last place (relative 3 * 2^-53); no
    counts are no intensity. *)
Theorem C112_intensity : forall l r i x n, is_largest r l -> usual r -> nth_error l i = Some (x, n) -> usual n -> x = 0 \/ usual x ->
  exists v y, intensity_fl l = Ok v /\ nth_error v i = Some (Some y) /\ Rabs (y - x / n * r) <= 3 * / 2 ^ 53 * (x / n * r).
Proof.
  intros l r i x n M Ur E Un X. unfold intensity_fl. rewrite (largest_is l r M). cbn [bind]. eexists. exists (rnd (rnd (x / n) * r)). split; [reflexivity|].
  rewrite (at_point _ l i (x, n) E). cbn [fst snd]. rewrite scaled_some by exact Un. split; [reflexivity|].
  destruct X as [-> | X]; [|apply scaled_rel; [apply Rle_trans with (2 := proj1 X); apply bp; lia|exact Un|exact Ur]].
  unfold Rdiv. rewrite Rmult_0_l, rnd_zero, Rmult_0_l, rnd_zero, Rminus_0_r, Rabs_R0. lra.
Qed.
Print Assumptions C112_intensity.

(** C112.  Likewise the error, sqrt counts / norm * largest norm, up to five units. *)
Theorem C112_error : forall l r i x n, is_largest r l -> usual r -> nth_error l i = Some (x, n) -> usual n -> x = 0 \/ usual x ->
  exists v y, error_fl l = Ok v /\ nth_error v i = Some (Some y) /\ Rabs (y - sqrt x / n * r) <= 5 * / 2 ^ 53 * (sqrt x / n * r).
Proof.
  intros l r i x n M Ur E Un X. unfold error_fl. rewrite (largest_is l r M). cbn [bind]. eexists. exists (rnd (rnd (rnd (sqrt x) / n) * r)). split; [reflexivity|].
  rewrite (at_point _ l i (x, n) E). cbn [fst snd]. unfold root_fl. assert (X0 : 0 <= x) by (destruct X as [-> | X]; [lra|apply usual_pos in X; lra]). destruct (Rle_dec 0 x); [|contradiction]. rewrite scaled_some by exact Un. split; [reflexivity|].
  destruct X as [-> | X].
  { rewrite sqrt_0, rnd_zero. unfold Rdiv. rewrite Rmult_0_l, rnd_zero, Rmult_0_l, rnd_zero, Rminus_0_r, Rabs_R0. lra. }
  assert (S : bpow radix2 (-100) <= sqrt x). { replace (bpow radix2 (-100)) with (sqrt (bpow radix2 (-200))); [apply sqrt_le_1_alt, X|]. replace (bpow radix2 (-200)) with (bpow radix2 (-100) * bpow radix2 (-100)) by (rewrite <- bpow_plus; reflexivity). apply sqrt_square, bpow_ge_0. }
  set (s := sqrt x) in *. assert (Ps : 0 < s) by (assert (P := bpow_gt_0 radix2 (-100)); lra).
  assert (E1 : Rabs (rnd s - s) <= 5 / 4 * u * s). { rewrite <- (Rabs_right s) at 3 by lra. apply rel. rewrite Rabs_right by lra. apply Rle_trans with (2 := S). apply bp. lia. }
  assert (L : bpow radix2 (-300) <= rnd s). { apply (half_at s); [|exact E1]. apply Rle_trans with (2 := S). apply bp. lia. }
  assert (E2 := scaled_rel (rnd s) n r L Un Ur). assert (Pn := usual_pos n Un). assert (Pr := usual_pos r Ur).
  set (k := r / n). assert (Pk : 0 < k) by (apply Rdiv_lt_0_compat; assumption). replace (rnd s / n * r) with (rnd s * k) in E2 by (unfold k; field; lra). replace (s / n * r) with (s * k) by (unfold k; field; lra).
  assert (U := u_small). assert (U1 : u <= / 100) by (apply Rle_trans with (1 := proj2 U); apply Rinv_le_contravar; lra). fold u.
  apply Rabs_le_inv in E1, E2. assert (E3 : - (5 / 4 * u * (s * k)) <= rnd s * k - s * k <= 5 / 4 * u * (s * k)) by (split; nra).
  assert (0 < s * k) by (apply Rmult_lt_0_compat; assumption). assert (0 <= u * (s * k)) by nra. assert (u * (u * (s * k)) <= / 100 * (u * (s * k))) by (apply Rmult_le_compat_r; lra).
  assert (u * (rnd s * k) <= u * (s * k) + 5 / 4 * u * (u * (s * k))) by nra. apply Rabs_le. split; nra.
Qed.
Print Assumptions C112_error.

(** C112.  At equal norm more counts never have less intensity; whole counts up to 2^50 that differ have intensities that differ. *)
Theorem C112_order : forall l r i j x y n, is_largest r l -> usual r -> nth_error l i = Some (x, n) -> nth_error l j = Some (y, n) -> usual n -> x <= y ->
  exists v a b, intensity_fl l = Ok v /\ nth_error v i = Some (Some a) /\ nth_error v j = Some (Some b) /\ a <= b /\
  (forall p q, x = IZR p -> y = IZR q -> (0 <= p)%Z -> (q <= 2 ^ 50)%Z -> x < y -> a < b).
Proof.
  intros l r i j x y n M Ur Ei Ej Un L. unfold intensity_fl. rewrite (largest_is l r M). cbn [bind]. eexists. exists (rnd (rnd (x / n) * r)), (rnd (rnd (y / n) * r)). split; [reflexivity|].
  rewrite (at_point _ l i _ Ei), (at_point _ l j _ Ej). cbn [fst snd]. rewrite !scaled_some by exact Un. split; [reflexivity|]. split; [reflexivity|].
  assert (Pn := usual_pos n Un). assert (Pr := usual_pos r Ur). split.
  - apply rnd_mono, Rmult_le_compat_r; [lra|]. apply rnd_mono. unfold Rdiv. apply Rmult_le_compat_r; [apply Rlt_le, Rinv_0_lt_compat, Pn|exact L].
  - intros p q -> -> P0 Q1 Lt. apply lt_IZR in Lt. set (k := r / n). assert (Pk : 0 < k) by (apply Rdiv_lt_0_compat; assumption).
    assert (One : bpow radix2 (-300) <= 1) by (change 1 with (bpow radix2 0); apply bp; lia).
    assert (B : forall z, (1 <= z)%Z -> Rabs (rnd (rnd (IZR z / n) * r) - IZR z * k) <= 3 * u * (IZR z * k)).
    { intros z Z. apply IZR_le in Z. replace (IZR z * k) with (IZR z / n * r) by (unfold k; field; lra). apply scaled_rel; [lra|exact Un|exact Ur]. }
    assert (Bq := B q ltac:(lia)). assert (Q2 : IZR q <= 2 ^ 50). { replace (2 ^ 50) with (IZR (2 ^ 50)); [apply IZR_le, Q1|]. rewrite (pow_IZR 2 50). reflexivity. }
    assert (Step : IZR p + 1 <= IZR q) by (rewrite <- plus_IZR; apply IZR_le; lia). assert (Uq : u * IZR q <= / 8). { unfold u. apply (Rmult_le_reg_l (2 ^ 53)); [lra|]. rewrite <- Rmult_assoc, Rinv_r, Rmult_1_l by lra. lra. }
    apply IZR_le in P0. assert (U := u_small).
    assert (Bp : rnd (rnd (IZR p / n) * r) <= IZR p * k + 3 * u * (IZR p * k)).
    { destruct (Z.eq_dec p 0) as [-> | Np]; [unfold Rdiv; rewrite Rmult_0_l, rnd_zero, Rmult_0_l, rnd_zero; lra|]. assert (1 <= p)%Z by (apply le_IZR in P0; lia). assert (Bp := B p H). apply Rabs_le_inv in Bp. lra. }
    apply Rabs_le_inv in Bq. assert (Up : u * IZR p <= / 8) by nra. assert (u * IZR p * k <= / 8 * k) by (apply Rmult_le_compat_r; lra). assert (u * IZR q * k <= / 8 * k) by (apply Rmult_le_compat_r; lra). nra.
Qed.
Print Assumptions C112_order.

(** C112.  Where the norm is the largest one, a whole number of counts up to 2^50 can be recovered by rounding. *)
Theorem C112_counts : forall l r i p, is_largest r l -> usual r -> nth_error l i = Some (IZR p, r) -> (0 <= p <= 2 ^ 50)%Z ->
  exists v y, intensity_fl l = Ok v /\ nth_error v i = Some (Some y) /\ ZnearestE y = p.
Proof.
  intros l r i p M Ur E P. assert (Pr := usual_pos r Ur). assert (X : IZR p = 0 \/ usual (IZR p)).
  { destruct (Z.eq_dec p 0) as [-> | N]; [left; reflexivity|right]. split.
    - apply Rle_trans with 1; [change 1 with (bpow radix2 0); apply bp; lia|apply IZR_le; lia].
    - apply Rle_trans with (bpow radix2 50); [|apply bp; lia]. rewrite <- (IZR_Zpower radix2 50) by lia. apply IZR_le. exact (proj2 P). }
  destruct (C112_intensity l r i _ r M Ur E Ur X) as (v & y & A & B & C). exists v, y. split; [exact A|]. split; [exact B|].
  replace (IZR p / r * r) with (IZR p) in C by (field; lra). apply Znearest_imp. apply Rle_lt_trans with (1 := C).
  assert (Q2 : IZR p <= 2 ^ 50). { replace (2 ^ 50) with (IZR (2 ^ 50)); [apply IZR_le, P|]. rewrite (pow_IZR 2 50). reflexivity. } lra.
Qed.
Print Assumptions C112_counts.

(** C112.  With norms of one (files without monitor) the intensity is exactly the counts. *)
Theorem C112_unit : forall l, l <> [] -> (forall p, In p l -> snd p = 1 /\ double (fst p)) -> intensity_fl l = Ok (map (fun p => Some (fst p)) l).
Proof.
  intros l N H. assert (M : is_largest 1 l). { destruct l as [|p l]; [contradiction|]. split; [exists p; split; [left; reflexivity|apply H; left; reflexivity]|]. intros q I. rewrite (proj1 (H q I)). lra. }
  unfold intensity_fl. rewrite (largest_is l 1 M). cbn [bind]. f_equal. apply map_ext_in. intros p I. destruct (H p I) as [-> D]. unfold scaled. destruct (Req_EM_T 1 0); [lra|].
  unfold Rdiv. rewrite Rinv_1, !Rmult_1_r, !(rnd_double _ D). reflexivity.
Qed.
Print Assumptions C112_unit.

(** C112.  Nothing was measured: ValueError. *)
Theorem C112_empty : intensity_fl [] = Err ValueError /\ error_fl [] = Err ValueError.
Proof. split; reflexivity. Qed.
Print Assumptions C112_empty.

(** C112.  In general the intensity of the point with the largest norm is not its counts: one count at monitor 49. *)
Theorem C112_counts_refuted : exists l r x y v, is_largest r l /\ In (x, r) l /\ intensity_fl l = Ok v /\ In (Some y) v /\ y < x /\ List.length l = 1%nat.
Proof.
  exists [(1, 49)], 49, 1, (rnd (rnd (1 / 49) * 49)). assert (M : is_largest 49 [(1, 49)]). { split; [exists (1, 49); split; [left; reflexivity|reflexivity]|]. intros p [<-|[]]. cbn. lra. }
  eexists. split; [exact M|]. split; [left; reflexivity|]. unfold intensity_fl. rewrite (largest_is _ _ M). cbn [bind map fst snd]. split; [reflexivity|].
  unfold scaled. destruct (Req_EM_T 49 0); [lra|]. split; [left; reflexivity|]. split; [|reflexivity].
  assert (L := literal_is 1 49 5882252574524729 2 ltac:(lia) ltac:(lia) ltac:(lia) ltac:(lia) ltac:(lia)). rewrite L. rewrite Rmult_comm, P60_scale.
  p60 (49 * (5882252574524729 * 2 ^ 2))%Z 9007199254740991%Z 7%Z.
  replace 1 with (P60 (2 ^ 60)); [apply P60_lt; reflexivity|]. unfold P60. replace (IZR (2 ^ 60)) with (bpow radix2 60) by (rewrite <- (IZR_Zpower radix2 60) by lia; reflexivity). rewrite <- bpow_plus. reflexivity.
Qed.
Print Assumptions C112_counts_refuted.

Example C112_case : is_largest 100 [(4, 80); (9, 100); (7, 80)] /\ usual 100 /\ usual 80 /\ usual 4 /\ usual 7.
Proof.
  assert (U : forall z, (1 <= z <= 2 ^ 100)%Z -> usual (IZR z)).
  { intros z [A B]. split; [apply Rle_trans with 1; [change 1 with (bpow radix2 0); apply bp; lia|apply IZR_le; exact A]|].
    apply Rle_trans with (bpow radix2 100); [|apply bp; lia]. rewrite <- (IZR_Zpower radix2 100) by lia. apply IZR_le. exact B. }
  split; [|repeat split; apply U; lia]. split; [exists (9, 100); split; [right; left; reflexivity|reflexivity]|]. intros p [<-|[<-|[<-|[]]]]; cbn; lra.
Qed.

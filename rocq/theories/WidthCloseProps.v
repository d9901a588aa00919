(** C117: how large a width can be. *)
From Coq Require Import List Arith ZArith Reals Lra Lia Psatz Permutation.
From Flocq Require Import Core.
From Verif Require Import Base EnergyFloatModel BinFloatProps PointsFloatProps BgFloatProps IntFloatModel IntFloatProps PosnFloatProps PosnCloseProps WidthFloatModel WidthFloatProps.
Import ListNotations.
Local Open Scope R_scope.

Lemma deviation_le s p z : Rabs (z - p) <= s -> 0 <= deviation p z <= rnd (rnd s * rnd s).
Proof.
  intros H. unfold deviation. assert (A : Rabs (rnd (z - p)) <= rnd s). { apply Rabs_le_inv in H. apply Rabs_le. split; [rewrite <- rnd_opp|]; apply rnd_mono; lra. }
  set (d := rnd (z - p)) in *. assert (E : d * d = Rabs d * Rabs d) by (rewrite <- Rabs_mult, Rabs_right; [reflexivity|nra]). assert (P := Rabs_pos d). split; [apply rnd_nonneg; rewrite E; apply Rmult_le_pos; lra|]. apply rnd_mono. rewrite E. apply Rmult_le_compat; lra.
Qed.
Lemma square_close s : bpow radix2 (-400) <= s -> rnd (rnd s * rnd s) <= (1 + 7 * u) * s ^ 2.
Proof.
  intros H. assert (U := u_small). assert (S0 : 0 < s) by (apply Rlt_le_trans with (2 := H); apply bpow_gt_0). assert (E1 := rnd_error s). fold u eta in E1. rewrite (Rabs_right s) in E1 by lra. assert (r0 := rnd_nonneg s ltac:(lra)). set (r := rnd s) in *. clearbody r.
  assert (Ue : u = bpow radix2 (-53)). { unfold u. change (-53)%Z with (Z.opp 53). rewrite bpow_opp. f_equal. cbn [bpow]. rewrite (pow_IZR 2 53). reflexivity. }
  assert (N1 : eta <= u * s). { apply Rle_trans with (u * bpow radix2 (-400)); [rewrite Ue, <- bpow_plus; apply bpow_le; lia|apply Rmult_le_compat_l; lra]. }
  assert (N2 : eta <= u * s ^ 2). { apply Rle_trans with (u * (bpow radix2 (-400)) ^ 2); [rewrite Ue; cbn [pow]; rewrite Rmult_1_r, <- !bpow_plus; apply bpow_le; lia|]. apply Rmult_le_compat_l; [lra|]. apply pow_incr. split; [apply bpow_ge_0|exact H]. }
  assert (R : r <= (1 + 2 * u) * s) by (apply Rabs_le_inv in E1; lra). assert (E2 := rnd_error (r * r)). fold u eta in E2. rewrite (Rabs_right (r * r)) in E2 by (apply Rle_ge, Rmult_le_pos; lra). apply Rabs_le_inv in E2.
  assert (Q : r * r <= (1 + 2 * u) * s * ((1 + 2 * u) * s)) by (apply Rmult_le_compat; lra). assert (s2 : 0 <= s ^ 2) by (apply pow_le; lra).
  assert (Q2 : (1 + u) * (r * r) <= (1 + u) * ((1 + 2 * u) * s * ((1 + 2 * u) * s))) by (apply Rmult_le_compat_l; lra).
  assert (Q3 : (1 + u) * (1 + 2 * u) ^ 2 + u <= 1 + 7 * u) by nra. assert (Q4 : ((1 + u) * (1 + 2 * u) ^ 2 + u) * s ^ 2 <= (1 + 7 * u) * s ^ 2) by (apply Rmult_le_compat_r; lra). lra.
Qed.

(** C117.  In a scan along one column with no intensity below the background the width of a column is at most the square of the range of its values, up to the error of
    the position and a relative error of twice the number of points and twenty-three units, and 2^-400. *)
Theorem C117_close : forall order before after c x I b lo hi t w, adds order -> Forall unchanging before -> Forall unchanging after -> rising c -> (forall z, In z c -> double z /\ Rabs z <= bpow radix2 100) ->
  List.length c = List.length I -> List.length x = List.length I -> INR (List.length I) <= 10 ^ 6 -> (forall v, In v I -> b <= v) -> lo <= hi -> (forall z, In z x -> lo <= z <= hi) ->
  let columns := before ++ c :: after in integrate_fl order columns I b = Ok t -> bpow radix2 (-500) <= t -> width_fl order columns columns columns x I b = Ok (Some w) ->
  let n := INR (List.length I) in let s := hi - lo + (2 * n + 15) * / 2 ^ 53 * Rmax (Rabs lo) (Rabs hi) + bpow radix2 (-400) in
  0 <= w <= (1 + (2 * n + 23) * / 2 ^ 53) * s ^ 2 + bpow radix2 (-400).
Proof.
  intros order before after c x I b lo hi t w O B A C Hc Lc Lx N HI LH Hx columns T Ht W n s. fold u in s |- *. unfold width_fl in W. destruct (position_fl order columns columns x I b) as [[p|]|] eqn:P; cbn [bind] in W; try discriminate.
  assert (Rc : Forall rising columns). { unfold columns. apply Forall_app. split; [revert B; apply Forall_impl; exact unchanging_rising|]. constructor; [exact C|revert A; apply Forall_impl; exact unchanging_rising]. }
  assert (Q := C116_close order before after c x I b lo hi t p O B A C Hc Lc Lx N HI Hx T Ht P). cbv zeta in Q. fold u n in Q. assert (U := u_small). assert (n0 := pos_INR (List.length I)). fold n in n0, N. set (d := (2 * n + 15) * u) in *. assert (d0 : 0 <= d) by (apply Rmult_le_pos; lra).
  assert (M1 := Rmax_l (Rabs lo) (Rabs hi)). assert (M2 := Rmax_r (Rabs lo) (Rabs hi)). set (m := Rmax (Rabs lo) (Rabs hi)) in *. assert (m0 : 0 <= m) by (apply Rle_trans with (2 := M1), Rabs_pos).
  assert (D1 : d * Rabs lo <= d * m) by (apply Rmult_le_compat_l; lra). assert (D2 : d * Rabs hi <= d * m) by (apply Rmult_le_compat_l; lra). assert (dm : 0 <= d * m) by (apply Rmult_le_pos; lra).
  assert (Dev : forall z, In z (map (deviation p) x) -> 0 <= z <= rnd (rnd s * rnd s)). { intros z Z. apply in_map_iff in Z. destruct Z as (a & <- & Z). apply deviation_le. specialize (Hx a Z). apply Rabs_le. unfold s. lra. }
  assert (s0 : bpow radix2 (-400) <= s) by (unfold s; lra). assert (Sq := square_close s s0). set (M := rnd (rnd s * rnd s)) in *.
  assert (V := C116_close order before after c (map (deviation p) x) I b 0 M t w O B A C Hc Lc ltac:(rewrite map_length; exact Lx) N HI Dev T Ht W). cbv zeta in V. fold u n d in V. destruct V as [_ V].
  assert (W0 : 0 <= w). { apply (position_pos order columns columns (map (deviation p) x) I b w Rc Rc); [apply Forall_forall; exact HI|apply Forall_forall; intros z Z; apply (Dev z Z)|exact W]. }
  split; [exact W0|]. assert (P0 := bpow_gt_0 radix2 (-400)). assert (Mp : 0 <= M) by (unfold M; apply rnd_nonneg, Rmult_le_pos; apply rnd_nonneg; lra). rewrite (Rabs_right M) in V by lra.
  assert (s2 : 0 <= s ^ 2) by (apply pow_le; lra). assert (dl : d <= / 10 ^ 8) by (unfold d; apply Rle_trans with ((2 * 10 ^ 6 + 15) * / 10 ^ 15); [apply Rmult_le_compat; lra|lra]).
  assert (V2 : (1 + d) * M <= (1 + d) * ((1 + 7 * u) * s ^ 2)) by (apply Rmult_le_compat_l; lra). assert (V3 : (1 + d) * (1 + 7 * u) <= 1 + (2 * n + 23) * u). { assert (d * (7 * u) <= / 10 ^ 8 * (7 * u)) by (apply Rmult_le_compat_r; lra). unfold d in *. lra. }
  assert (V4 : (1 + d) * (1 + 7 * u) * s ^ 2 <= (1 + (2 * n + 23) * u) * s ^ 2) by (apply Rmult_le_compat_r; lra). lra.
Qed.
Print Assumptions C117_close.
(** Two points at the same value: the width is not always 0 ([C117_still_refuted]), but below 10^-30. *)
Example C117_close_case : let h := rnd (1 / 10) in let columns := [[h; h]; [0; 1]] in exists w, width_fl ex_order columns columns columns [h; h] [3; 3] 0 = Ok (Some w) /\ 0 <= w <= / 10 ^ 30.
Proof.
  cbv zeta. assert (h1 := rnd_error (1 / 10)). fold u eta in h1. rewrite (Rabs_right (1 / 10)) in h1 by lra. assert (U := u_small). assert (e1 : eta <= / 10 ^ 15). { apply Rle_trans with u; [|lra]. unfold u. replace (/ 2 ^ 53) with (bpow radix2 (-53)) by (change (-53)%Z with (Z.opp 53); rewrite bpow_opp; f_equal; cbn [bpow]; rewrite (pow_IZR 2 53); reflexivity). apply bpow_le; lia. }
  assert (h0 := rnd_nonneg (1 / 10) ltac:(lra)). apply Rabs_le_inv in h1. set (h := rnd (1 / 10)) in *. assert (h2 : h <= 1 / 5) by lra. clearbody h. clear h1.
  assert (T : integrate_fl ex_order [[h; h]; [0; 1]] [3; 3] 0 = Ok 3).
  { rewrite integrate_ok by discriminate. f_equal. cbn [fold_left]. rewrite net3, (constant_pieces ex_order [3; 3] [h; h] h), (trapz_two 3 double3 double6), Rplus_0_r, rnd_zero, Rplus_0_l by (intros w [<-|[<-|[]]]; reflexivity). apply rnd_double, double3. }
  destruct (C117_answers ex_order [[h; h]; [0; 1]] [[h; h]; [0; 1]] [[h; h]; [0; 1]] [h; h] [3; 3] 0 ltac:(discriminate)) as [_ X]. destruct (proj2 (X 3 T) ltac:(lra)) as [w W]. exists w. split; [exact W|].
  assert (D1 : double 1) by (replace 1 with (IZR 1 * bpow radix2 0) by (cbn; lra); apply dyadic_double; lia). assert (B1 : 1 <= bpow radix2 100) by (apply (bpow_le radix2 0); lia).
  assert (R := C117_close ex_order [[h; h]] [] [0; 1] [h; h] [3; 3] 0 h h 3 w chain_adds ltac:(repeat constructor; exists h; intros q [<-|[<-|[]]]; reflexivity) (Forall_nil _) ltac:(cbn; lra)
    ltac:(intros z [<-|[<-|[]]]; (split; [first [exact dzero|exact D1]|rewrite Rabs_right by lra; lra])) eq_refl eq_refl ltac:(cbn; lra) ltac:(intros v [<-|[<-|[]]]; lra) ltac:(lra) ltac:(intros z [<-|[<-|[]]]; lra) T ltac:(apply Rle_trans with (bpow radix2 0); [apply bpow_le; lia|cbn; lra]) W).
  cbv zeta in R. cbn [List.length INR] in R. fold u in R. rewrite Rmax_left, (Rabs_right h) in R by lra. assert (q1 : bpow radix2 (-400) <= / 10 ^ 32). { apply Rle_trans with (bpow radix2 (-110)); [apply bpow_le; lia|]. change (-110)%Z with (Z.opp 110). rewrite bpow_opp. apply Rinv_le_contravar; [lra|]. cbn [bpow]. rewrite (pow_IZR 10 32). apply IZR_le. vm_compute. discriminate. }
  assert (q0 := bpow_gt_0 radix2 (-400)). set (q := bpow radix2 (-400)) in *. clearbody q. split; [apply R|]. destruct R as [_ R]. apply Rle_trans with (1 := R). assert (U2 : u <= / 9 * / 10 ^ 15). { unfold u. rewrite <- Rinv_mult. apply Rinv_le_contravar; lra. }
  assert (uh : u * h <= / 9 * / 10 ^ 15 * (1 / 5)) by (apply Rmult_le_compat; lra). assert (uh0 : 0 <= u * h) by (apply Rmult_le_pos; lra). set (s := h - h + _ + q). assert (s0 : 0 <= s <= / 2 * / 10 ^ 15) by (unfold s; lra). clearbody s.
  assert (s2 : s ^ 2 <= (/ 2 * / 10 ^ 15) ^ 2) by (apply pow_incr; exact s0). assert (s3 : 0 <= s ^ 2) by (apply pow_le; lra). match goal with |- (1 + ?k * u) * _ + _ <= _ => assert (k1 : (1 + k * u) * s ^ 2 <= 2 * (/ 2 * / 10 ^ 15) ^ 2) by (apply Rmult_le_compat; lra) end. lra.
Qed.

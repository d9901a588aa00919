(** C117: the accuracy of a width. *)
From Coq Require Import List Arith ZArith Reals Lra Lia Psatz Permutation.
From Flocq Require Import Core.
From Verif Require Import Base EnergyFloatModel BinFloatProps PointsFloatProps BgFloatProps IntFloatModel IntFloatProps PosnFloatProps PosnCloseProps PosnAccProps WidthFloatModel WidthFloatProps WidthCloseProps.
Import ListNotations.
Local Open Scope R_scope.

Lemma area_minus (f g : R -> R) : forall x y c, area (weighted (map f x) y) c - area (weighted (map g x) y) c = area (weighted (map (fun z => f z - g z) x) y) c.
Proof.
  induction x as [|x0 x IH]; intros y c; [cbn; lra|]. destruct y as [|y0 y]; [cbn; lra|]. destruct x as [|x1 x]; [cbn; lra|]. destruct y as [|y1 y]; [cbn; lra|]. destruct c as [|c0 [|c1 c]]; [cbn; lra|cbn; lra|].
  specialize (IH (y1 :: y) (c1 :: c)).
  change ((c1 - c0) * ((f x0 * y0 + f x1 * y1) / 2) + area (weighted (map f (x1 :: x)) (y1 :: y)) (c1 :: c) - ((c1 - c0) * ((g x0 * y0 + g x1 * y1) / 2) + area (weighted (map g (x1 :: x)) (y1 :: y)) (c1 :: c))
    = (c1 - c0) * (((f x0 - g x0) * y0 + (f x1 - g x1) * y1) / 2) + area (weighted (map (fun z => f z - g z) (x1 :: x)) (y1 :: y)) (c1 :: c)). rewrite <- IH. field.
Qed.
(** One squared deviation. *)
Lemma deviation_near M s p q z : bpow radix2 (-100) <= M -> Rabs z <= M -> Rabs q <= M -> Rabs (p - q) <= s -> s <= / 10 ^ 3 * M -> 0 <= deviation p z <= 5 * M ^ 2 /\ Rabs (deviation p z - (z - q) ^ 2) <= 41 / 10 * s * M + 25 * u * M ^ 2.
Proof.
  intros HM Z Q S Sm. assert (U := u_small). assert (M0 : 0 < M) by (apply Rlt_le_trans with (2 := HM); apply bpow_gt_0).
  assert (Ue : u = bpow radix2 (-53)). { unfold u. change (-53)%Z with (Z.opp 53). rewrite bpow_opp. f_equal. cbn [bpow]. rewrite (pow_IZR 2 53). reflexivity. }
  assert (N1 : eta <= u * M). { apply Rle_trans with (u * bpow radix2 (-100)); [rewrite Ue, <- bpow_plus; apply bpow_le; lia|apply Rmult_le_compat_l; lra]. }
  assert (N2 : eta <= u * M ^ 2). { apply Rle_trans with (u * (bpow radix2 (-100)) ^ 2); [rewrite Ue; cbn [pow]; rewrite Rmult_1_r, <- !bpow_plus; apply bpow_le; lia|]. apply Rmult_le_compat_l; [lra|]. apply pow_incr. split; [apply bpow_ge_0|exact HM]. }
  apply Rabs_le_inv in Z, Q, S. set (e := z - p). assert (He : Rabs e <= 2001 / 1000 * M) by (apply Rabs_le; unfold e; lra). unfold deviation. fold e. assert (E1 := rnd_error e). fold u eta in E1. set (d := rnd e) in *. clearbody d.
  assert (uM : 0 <= u * M) by (apply Rmult_le_pos; lra). assert (uM1 : u * M <= / 10 ^ 15 * M) by (apply Rmult_le_compat_r; lra).
  assert (U1 : u * Rabs e <= u * (2001 / 1000 * M)) by (apply Rmult_le_compat_l; lra). assert (D1 : Rabs (d - e) <= 31 / 10 * (u * M)) by lra.
  assert (D2 : Rabs (d + e) <= 43 / 10 * M). { replace (d + e) with ((d - e) + 2 * e) by ring. apply Rle_trans with (1 := Rabs_triang _ _). rewrite Rabs_mult, (Rabs_right 2) by lra. lra. }
  assert (D3 : Rabs (d * d - e * e) <= 31 / 10 * (u * M) * (43 / 10 * M)). { replace (d * d - e * e) with ((d - e) * (d + e)) by ring. rewrite Rabs_mult. apply Rmult_le_compat; try apply Rabs_pos; assumption. }
  assert (D4 : Rabs d <= 22 / 10 * M). { replace d with ((d - e) + e) by ring. apply Rle_trans with (1 := Rabs_triang _ _). lra. }
  assert (D5 : d * d <= 22 / 10 * M * (22 / 10 * M)). { replace (d * d) with (Rabs d * Rabs d) by (rewrite <- Rabs_mult, Rabs_right; [reflexivity|nra]). apply Rmult_le_compat; try apply Rabs_pos; assumption. }
  assert (d0 : 0 <= d * d) by nra. assert (E2 := rnd_error (d * d)). fold u eta in E2. rewrite (Rabs_right (d * d)) in E2 by lra. assert (r0 := rnd_nonneg (d * d) d0). set (r := rnd (d * d)) in *. clearbody r.
  assert (U2 : u * (d * d) <= u * (22 / 10 * M * (22 / 10 * M))) by (apply Rmult_le_compat_l; lra). assert (M2 : 0 <= M ^ 2) by (apply pow_le; lra). assert (uM2 : u * M ^ 2 <= / 10 ^ 15 * M ^ 2) by (apply Rmult_le_compat_r; lra). assert (uM3 : 0 <= u * M ^ 2) by (apply Rmult_le_pos; lra).
  split; [split; [exact r0|apply Rabs_le_inv in E2; lra]|].
  assert (D6 : Rabs (e * e - (z - q) ^ 2) <= s * (41 / 10 * M)). { replace (e * e - (z - q) ^ 2) with ((p - q) * (p + q - 2 * z)) by (unfold e; ring). rewrite Rabs_mult. apply Rmult_le_compat; try apply Rabs_pos; apply Rabs_le; lra. }
  replace (r - (z - q) ^ 2) with ((r - d * d) + (d * d - e * e) + (e * e - (z - q) ^ 2)) by ring. assert (Y1 := Rabs_triang (r - d * d + (d * d - e * e)) (e * e - (z - q) ^ 2)). assert (Y2 := Rabs_triang (r - d * d) (d * d - e * e)). lra.
Qed.

(** C117.  In a scan along one column with no intensity below the background the width differs from the exact second moment about the exact centre of mass by at most twenty times the number of
    points and 180 units of the square of the largest coordinate; neither it nor the integrated intensity must be extremely small. *)
Theorem C117_accurate : forall order before after c x I b M t w, adds order -> Forall unchanging before -> Forall unchanging after -> rising c -> (forall z, In z c -> double z /\ Rabs z <= bpow radix2 100) ->
  List.length c = List.length I -> List.length x = List.length I -> INR (List.length I) <= 10 ^ 6 -> double b -> (forall v, In v I -> double v /\ b <= v) -> bpow radix2 (-100) <= M -> (forall z, In z x -> Rabs z <= M) ->
  let columns := before ++ c :: after in integrate_fl order columns I b = Ok t -> bpow radix2 (-500) <= t -> width_fl order columns columns columns x I b = Ok (Some w) ->
  let y := map (fun v => v - b) I in let centre := area (weighted x y) c / area y c in
  0 < area y c /\ Rabs (w - area (weighted (map (fun z => (z - centre) ^ 2) x) y) c / area y c) <= (20 * INR (List.length I) + 180) * / 2 ^ 53 * M ^ 2.
Proof.
  intros order before after c x I b M t w O B A C Hc Lc Lx N Db HI HM Hx columns T Ht W y q. fold u. assert (U := u_small). assert (M0 : 0 < M) by (apply Rlt_le_trans with (2 := HM); apply bpow_gt_0).
  unfold width_fl in W. destruct (position_fl order columns columns x I b) as [[p|]|] eqn:P; cbn [bind] in W; try discriminate.
  destruct (C116_accurate order before after c x I b M t p O B A C Hc Lc Lx N Db HI ltac:(lra) Hx T Ht P) as [S0 Hp]. fold u y q in Hp. fold y in S0. split; [exact S0|].
  assert (Y : Forall (fun v => 0 <= v) y) by (apply Forall_map, Forall_forall; intros v V; destruct (HI v V); lra). assert (Ly : List.length x = List.length y) by (unfold y; rewrite map_length; exact Lx).
  assert (Hq : Rabs q <= M). { destruct (area_between (- M) M x y c) as [L1 L2]; try assumption; [apply Forall_forall; intros z Z; apply Rabs_le_inv, Hx, Z|]. apply Rabs_le. unfold q. split; apply (Rmult_le_reg_r (area y c)); try exact S0; unfold Rdiv; rewrite Rmult_assoc, Rinv_l by lra; lra. }
  assert (Ue : u = bpow radix2 (-53)). { unfold u. change (-53)%Z with (Z.opp 53). rewrite bpow_opp. f_equal. cbn [bpow]. rewrite (pow_IZR 2 53). reflexivity. }
  assert (N1 : bpow radix2 (-400) <= u * M). { apply Rle_trans with (u * bpow radix2 (-100)); [rewrite Ue, <- bpow_plus; apply bpow_le; lia|apply Rmult_le_compat_l; lra]. }
  assert (N2 : bpow radix2 (-400) <= u * M ^ 2). { apply Rle_trans with (u * (bpow radix2 (-100)) ^ 2); [rewrite Ue; cbn [pow]; rewrite Rmult_1_r, <- !bpow_plus; apply bpow_le; lia|]. apply Rmult_le_compat_l; [lra|]. apply pow_incr. split; [apply bpow_ge_0|exact HM]. }
  assert (n0 := pos_INR (List.length I)). set (n := INR (List.length I)) in *. set (s := (2 * n + 17) * (u * M)). assert (Hs : Rabs (p - q) <= s) by (unfold s; lra).
  assert (Sm : s <= / 10 ^ 3 * M). { unfold s. rewrite <- Rmult_assoc. apply Rmult_le_compat_r; [lra|]. apply Rle_trans with ((2 * 10 ^ 6 + 17) * / 10 ^ 15); [apply Rmult_le_compat; lra|lra]. }
  assert (Dev := fun z Z => deviation_near M s p q z HM (Hx z Z) Hq Hs Sm). assert (M2 : 0 <= M ^ 2) by (apply pow_le; lra).
  destruct (C116_accurate order before after c (map (deviation p) x) I b (5 * M ^ 2) t w O B A C Hc Lc ltac:(rewrite map_length; exact Lx) N Db HI ltac:(lra) ltac:(intros z Z; apply in_map_iff in Z; destruct Z as (a & <- & Z); destruct (Dev a Z) as [D _]; rewrite Rabs_right; lra) T Ht W) as [_ Hw]. fold u y n in Hw.
  set (k := 41 / 10 * s * M + 25 * u * M ^ 2) in *.
  assert (Df : Rabs (area (weighted (map (deviation p) x) y) c / area y c - area (weighted (map (fun z => (z - q) ^ 2) x) y) c / area y c) <= k).
  { replace (_ / area y c - _ / area y c) with ((area (weighted (map (deviation p) x) y) c - area (weighted (map (fun z => (z - q) ^ 2) x) y) c) / area y c) by (field; lra). rewrite area_minus.
    destruct (area_between (- k) k (map (fun z => deviation p z - (z - q) ^ 2) x) y c) as [L1 L2]; try assumption; [apply Forall_map, Forall_forall; intros z Z; apply Rabs_le_inv, (Dev z Z)|rewrite map_length; exact Ly|].
    apply Rabs_le. split; apply (Rmult_le_reg_r (area y c)); try exact S0; unfold Rdiv; rewrite Rmult_assoc, Rinv_l by lra; lra. }
  set (a1 := _ / area y c) in Hw, Df. set (a2 := _ / area y c) in Df |- *. replace (w - a2) with ((w - a1) + (a1 - a2)) by ring. apply Rle_trans with (1 := Rabs_triang _ _).
  assert (Ek : k = (41 / 10 * (2 * n + 17) + 25) * (u * M ^ 2)) by (unfold k, s; ring). assert (uM : 0 <= u * M ^ 2) by (apply Rmult_le_pos; lra). assert (nu : 0 <= n * (u * M ^ 2)) by (apply Rmult_le_pos; lra). rewrite Ek in Df. lra.
Qed.
Print Assumptions C117_accurate.
(** Three counts at each of the energies 0 and 1: the exact width is 1/4. *)
Example C117_accurate_case : exists w, width_fl ex_order [[1; 1]; [0; 1]] [[1; 1]; [0; 1]] [[1; 1]; [0; 1]] [0; 1] [3; 3] 0 = Ok (Some w) /\ Rabs (w - 1 / 4) <= 220 * / 2 ^ 53.
Proof.
  assert (T : integrate_fl ex_order [[1; 1]; [0; 1]] [3; 3] 0 = Ok 3).
  { rewrite integrate_ok by discriminate. f_equal. cbn [fold_left]. rewrite net3, (constant_pieces ex_order [3; 3] [1; 1] 1), (trapz_two 3 double3 double6), Rplus_0_r, rnd_zero, Rplus_0_l by (intros w [<-|[<-|[]]]; reflexivity). apply rnd_double, double3. }
  destruct (C117_answers ex_order [[1; 1]; [0; 1]] [[1; 1]; [0; 1]] [[1; 1]; [0; 1]] [0; 1] [3; 3] 0 ltac:(discriminate)) as [_ X]. destruct (proj2 (X 3 T) ltac:(lra)) as [w W]. exists w. split; [exact W|].
  assert (D1 : double 1) by (replace 1 with (IZR 1 * bpow radix2 0) by (cbn; lra); apply dyadic_double; lia). assert (B1 : 1 <= bpow radix2 100) by (apply (bpow_le radix2 0); lia).
  destruct (C117_accurate ex_order [[1; 1]] [] [0; 1] [0; 1] [3; 3] 0 1 3 w chain_adds ltac:(repeat constructor; exists 1; intros q [<-|[<-|[]]]; reflexivity) (Forall_nil _) ltac:(cbn; lra)
    ltac:(intros z [<-|[<-|[]]]; (split; [first [exact dzero|exact D1]|rewrite Rabs_right by lra; lra])) eq_refl eq_refl ltac:(cbn; lra) dzero ltac:(intros v [<-|[<-|[]]]; (split; [exact double3|lra])) ltac:(apply (bpow_le radix2 (-100) 0); lia) ltac:(intros z [<-|[<-|[]]]; rewrite Rabs_right; lra) T ltac:(apply Rle_trans with (bpow radix2 0); [apply bpow_le; lia|cbn; lra]) W) as [_ R].
  assert (E : area (weighted [0; 1] (map (fun v => v - 0) [3; 3])) [0; 1] / area (map (fun v => v - 0) [3; 3]) [0; 1] = 1 / 2) by (cbn; field). rewrite E in R.
  assert (E2 : area (weighted (map (fun z => (z - 1 / 2) ^ 2) [0; 1]) (map (fun v => v - 0) [3; 3])) [0; 1] / area (map (fun v => v - 0) [3; 3]) [0; 1] = 1 / 4) by (cbn; field). rewrite E2 in R. cbn [List.length INR] in R. lra.
Qed.

(** C117.  The full width is that of a Gaussian of the given variance, up to four units and twice the error of the constant. *)
Lemma rnd_rel x : bpow radix2 (-900) <= x -> Rabs (rnd x - x) <= 101 / 100 * u * x.
Proof.
  intros H. assert (U := u_small). assert (x0 : 0 < x) by (apply Rlt_le_trans with (2 := H); apply bpow_gt_0). assert (E := rnd_error x). fold u eta in E. rewrite (Rabs_right x) in E by lra.
  assert (Ue : u = bpow radix2 (-53)). { unfold u. change (-53)%Z with (Z.opp 53). rewrite bpow_opp. f_equal. cbn [bpow]. rewrite (pow_IZR 2 53). reflexivity. }
  assert (N : eta <= 1 / 100 * (u * x)). { apply Rle_trans with (bpow radix2 (-7) * (u * bpow radix2 (-900))); [rewrite Ue, <- !bpow_plus; apply bpow_le; lia|]. apply Rmult_le_compat; [apply bpow_ge_0|apply Rmult_le_pos; [lra|apply bpow_ge_0]|cbn; lra|apply Rmult_le_compat_l; lra]. }
  lra.
Qed.
Theorem C117_fwhm_accurate : forall k w f e, let K := sqrt (2 * ln 2) in bpow radix2 (-900) <= w -> 0 <= e <= 1 / 2 -> Rabs (k - K) <= e * K -> fwhm_fl k w = Some f ->
  Rabs (f - 2 * K * sqrt w) <= (4 * / 2 ^ 53 + 2 * e) * (2 * K * sqrt w).
Proof.
  intros k w f e K Hw He Hk F. fold u. assert (U := u_small). assert (K1 : 1 <= K). { unfold K. rewrite <- sqrt_1 at 1. apply sqrt_le_1_alt. assert (L := ln_lt_2). lra. }
  unfold fwhm_fl in F. assert (w0 := bpow_gt_0 radix2 (-900)). destruct (Rlt_dec w 0); [lra|]. injection F as <-.
  assert (s0 : bpow radix2 (-450) <= sqrt w). { rewrite <- (sqrt_square (bpow radix2 (-450))) by apply bpow_ge_0. rewrite <- bpow_plus. apply sqrt_le_1_alt. exact Hw. } assert (B1 : bpow radix2 (-450) > 0) by apply bpow_gt_0. assert (B2 : 8 * bpow radix2 (-900) <= bpow radix2 (-450)). { change 8 with (bpow radix2 3). rewrite <- bpow_plus. apply bpow_le. lia. }
  set (s := sqrt w) in *. clearbody s. assert (eK : e * K <= 1 / 2 * K) by (apply Rmult_le_compat_r; lra). assert (eK0 : 0 <= e * K) by (apply Rmult_le_pos; lra). apply Rabs_le_inv in Hk.
  assert (E1 := rnd_rel s ltac:(lra)). apply Rabs_le_inv in E1. set (a := rnd s) in *. clearbody a. assert (us : 0 <= u * s) by (apply Rmult_le_pos; lra). assert (us1 : u * s <= / 10 ^ 15 * s) by (apply Rmult_le_compat_r; lra). assert (ua : u * a <= u * ((1 + 101 / 100 * u) * s)) by (apply Rmult_le_compat_l; lra). assert (uus : u * (u * s) <= / 10 ^ 15 * (u * s)) by (apply Rmult_le_compat_r; lra).
  assert (E2 := rnd_rel (a * 2) ltac:(lra)). apply Rabs_le_inv in E2. set (c := rnd (a * 2)) in *. clearbody c. assert (C1 : Rabs (c - 2 * s) <= 41 / 10 * (u * s)) by (apply Rabs_le; lra). apply Rabs_le_inv in C1.
  assert (c0 : s <= c) by lra. assert (k0 : 1 / 2 <= k) by lra. assert (ck : s * (1 / 2) <= c * k) by (apply Rmult_le_compat; lra). assert (E3 := rnd_rel (c * k) ltac:(lra)). apply Rabs_le_inv in E3. set (g := rnd (c * k)) in *. clearbody g.
  assert (Ks : 0 <= K * s) by (apply Rmult_le_pos; lra). assert (kK : 0 <= k <= (1 + e) * K) by lra.
  assert (D1 : Rabs (c * k - 2 * K * s) <= (1 + e) * K * (41 / 10 * (u * s)) + 2 * s * (e * K)). { replace (c * k - 2 * K * s) with (k * (c - 2 * s) + 2 * s * (k - K)) by ring. apply Rle_trans with (1 := Rabs_triang _ _). rewrite !Rabs_mult, (Rabs_right k), (Rabs_right 2), (Rabs_right s) by lra. apply Rplus_le_compat; [apply Rmult_le_compat; try lra; [apply Rabs_pos|apply Rabs_le; lra]|apply Rmult_le_compat_l; [lra|apply Rabs_le; lra]]. }
  apply Rabs_le_inv in D1. set (X := K * s) in *. assert (uX : 0 <= u * X) by (apply Rmult_le_pos; lra). assert (uX1 : u * X <= / 10 ^ 15 * X) by (apply Rmult_le_compat_r; lra). assert (eX : e * X <= 1 / 2 * X) by (apply Rmult_le_compat_r; lra). assert (eX0 : 0 <= e * X) by (apply Rmult_le_pos; lra). assert (euX : e * (u * X) <= 1 / 2 * (u * X)) by (apply Rmult_le_compat_r; lra). assert (euX0 : 0 <= e * (u * X)) by (apply Rmult_le_pos; lra).
  assert (euX2 : u * (e * X) <= / 10 ^ 15 * (e * X)) by (apply Rmult_le_compat_r; lra).
  assert (D2 : (1 + e) * K * (41 / 10 * (u * s)) + 2 * s * (e * K) = 41 / 10 * (u * X) + 41 / 10 * (e * (u * X)) + 2 * (e * X)) by (unfold X; ring). rewrite D2 in D1. replace (2 * K * s) with (2 * X) in * by (unfold X; ring).
  assert (D3 : c * k <= (2 + 2 * e + / 100) * X) by lra. assert (D4 : u * (c * k) <= u * ((2 + 2 * e + / 100) * X)) by (apply Rmult_le_compat_l; lra). apply Rabs_le. split; lra.
Qed.
Print Assumptions C117_fwhm_accurate.
Example C117_fwhm_accurate_case : let K := sqrt (2 * ln 2) in exists f, bpow radix2 (-900) <= 1 / 64 /\ Rabs (rnd K - K) <= 2 * u * K /\ fwhm_fl (rnd K) (1 / 64) = Some f /\ Rabs (f - K / 4) <= 8 * u * (K / 4).
Proof.
  cbv zeta. assert (U := u_small). assert (K1 : 1 <= sqrt (2 * ln 2)). { rewrite <- sqrt_1 at 1. apply sqrt_le_1_alt. assert (L := ln_lt_2). lra. } assert (B : bpow radix2 (-900) <= 1 / 64) by (apply Rle_trans with (bpow radix2 (-6)); [apply bpow_le; lia|cbn; lra]). assert (R := rnd_rel (sqrt (2 * ln 2)) ltac:(lra)).
  set (K := sqrt (2 * ln 2)) in *. assert (uK : 0 <= u * K) by (apply Rmult_le_pos; lra). eexists. split; [exact B|]. split; [lra|]. unfold fwhm_fl at 1. destruct (Rlt_dec (1 / 64) 0); [lra|]. split; [reflexivity|].
  assert (S : sqrt (1 / 64) = 1 / 8) by (replace (1 / 64) with (1 / 8 * (1 / 8)) by lra; apply sqrt_square; lra).
  assert (Q := C117_fwhm_accurate (rnd K) (1 / 64) _ (2 * u) B ltac:(lra) ltac:(fold K; lra) ltac:(unfold fwhm_fl; destruct (Rlt_dec (1 / 64) 0); [lra|reflexivity])). fold K u in Q. rewrite S in *. replace (2 * K * (1 / 8)) with (K / 4) in Q by field. lra.
Qed.

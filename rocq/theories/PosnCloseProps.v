(** C116: how far outside the range of the coordinates a position can lie. *)
From Coq Require Import List Arith ZArith Reals Lra Lia Psatz Permutation.
From Flocq Require Import Core.
From Verif Require Import Base EnergyFloatModel BinFloatProps PointsFloatProps BgFloatProps IntFloatModel IntFloatProps PosnFloatProps.
Import ListNotations.
Local Open Scope R_scope.

Lemma size_area : forall y c, Forall (fun v => 0 <= v) y -> rising c -> size y c = area y c.
Proof.
  induction y as [|y0 y IH]; intros c Y C; [reflexivity|]. destruct y as [|y1 y]; [reflexivity|]. destruct c as [|c0 [|c1 c]]; [reflexivity|reflexivity|]. inversion Y as [|? ? Y0 Y']; subst. inversion Y' as [|? ? Y1 _]; subst. cbn in C. destruct C as [C0 C1].
  specialize (IH (c1 :: c) Y' C1). change (Rabs (c1 - c0) * ((Rabs y0 + Rabs y1) / 2) + size (y1 :: y) (c1 :: c) = (c1 - c0) * ((y0 + y1) / 2) + area (y1 :: y) (c1 :: c)). rewrite IH, !Rabs_right by lra. reflexivity.
Qed.
(** Rounded products with one number. *)
Lemma area_scaled v D : 0 <= v -> forall y c, Forall (fun w => 0 <= w) y -> rising c -> Forall (fun z => z <= D) c ->
  Rabs (area (map (fun w => rnd (v * w)) y) c - v * area y c) <= u * v * area y c + eta * (D - hd D c).
Proof.
  intros V. assert (U := u_small). assert (E := eta_pos).
  assert (H0 : forall c, Forall (fun z => z <= D) c -> 0 <= eta * (D - hd D c)) by (intros c B; apply Rmult_le_pos; [lra|destruct B; cbn [hd]; lra]).
  induction y as [|y0 y IH]; intros c Y C B.
  { cbn [map area]. rewrite Rmult_0_r, Rminus_0_r, Rabs_R0. specialize (H0 c B). lra. }
  destruct y as [|y1 y]. { cbn [map area]. rewrite Rmult_0_r, Rminus_0_r, Rabs_R0. specialize (H0 c B). lra. }
  destruct c as [|c0 [|c1 c]]. { cbn [map area]. rewrite Rmult_0_r, Rminus_0_r, Rabs_R0. specialize (H0 _ B). lra. } { cbn [map area]. rewrite Rmult_0_r, Rminus_0_r, Rabs_R0. specialize (H0 _ B). lra. }
  inversion Y as [|? ? Y0 Y']; subst. inversion Y' as [|? ? Y1 _]; subst. inversion B as [|? ? B0 B']; subst. cbn in C. destruct C as [C0 C1]. specialize (IH (c1 :: c) Y' C1 B').
  change (Rabs ((c1 - c0) * ((rnd (v * y0) + rnd (v * y1)) / 2) + area (map (fun w => rnd (v * w)) (y1 :: y)) (c1 :: c) - v * ((c1 - c0) * ((y0 + y1) / 2) + area (y1 :: y) (c1 :: c)))
    <= u * v * ((c1 - c0) * ((y0 + y1) / 2) + area (y1 :: y) (c1 :: c)) + eta * (D - c0)).
  cbn [hd] in IH. set (a := area _ _) in *. set (b := area (y1 :: y) (c1 :: c)) in *. clearbody a b.
  assert (R0 := rnd_error (v * y0)). assert (R1 := rnd_error (v * y1)). fold u eta in R0, R1. assert (v0 : 0 <= v * y0) by (apply Rmult_le_pos; lra). assert (v1 : 0 <= v * y1) by (apply Rmult_le_pos; lra). rewrite (Rabs_right (v * y0)) in R0 by lra. rewrite (Rabs_right (v * y1)) in R1 by lra.
  set (r0 := rnd (v * y0)) in *. set (r1 := rnd (v * y1)) in *. clearbody r0 r1.
  assert (S : Rabs ((c1 - c0) * ((r0 + r1) / 2 - v * ((y0 + y1) / 2))) <= (c1 - c0) * (u * v * ((y0 + y1) / 2) + eta)).
  { rewrite Rabs_mult, (Rabs_right (c1 - c0)) by lra. apply Rmult_le_compat_l; [lra|]. apply Rabs_le_inv in R0, R1. apply Rabs_le. lra. }
  replace (_ + a - _) with ((c1 - c0) * ((r0 + r1) / 2 - v * ((y0 + y1) / 2)) + (a - v * b)) by ring. apply Rle_trans with (1 := Rabs_triang _ _). lra.
Qed.
(** A quotient near [v]. *)
Lemma ratio_close v S T W k e w : 0 < S -> 0 <= v -> 0 < w -> 0 <= e -> 0 <= k -> (2 * k + 3) * (k + 1) * w <= 1 -> Rabs (W - v * T) <= (v * ((2 * k + 2) * w) + e) * S -> S * (1 - (k + 1) * w) <= T ->
  Rabs (W / T - v) <= v * ((2 * k + 3) * w) + 2 * e.
Proof.
  intros HS V HW E K H A B. assert (h : (k + 1) * w <= 1 / 3). { assert (0 <= k * ((k + 1) * w)) by (apply Rmult_le_pos; [lra|apply Rmult_le_pos; lra]). lra. }
  assert (T0 : 0 < T). { apply Rlt_le_trans with (2 := B). apply Rmult_lt_0_compat; lra. } replace (W / T - v) with ((W - v * T) * / T) by (field; lra). rewrite Rabs_mult, (Rabs_right (/ T)) by (apply Rle_ge, Rlt_le, Rinv_0_lt_compat; lra).
  apply (Rmult_le_reg_r T); [exact T0|]. rewrite Rmult_assoc, Rinv_l, Rmult_1_r by lra. apply Rle_trans with (1 := A).
  assert (P : 0 <= v * ((2 * k + 3) * w) + 2 * e). { assert (0 <= v * ((2 * k + 3) * w)) by (apply Rmult_le_pos; [lra|apply Rmult_le_pos; lra]). lra. }
  apply Rle_trans with ((v * ((2 * k + 3) * w) + 2 * e) * (S * (1 - (k + 1) * w))); [|apply Rmult_le_compat_l; [exact P|exact B]].
  replace ((v * ((2 * k + 3) * w) + 2 * e) * (S * (1 - (k + 1) * w))) with ((v * ((2 * k + 3) * w * (1 - (k + 1) * w)) + 2 * e * (1 - (k + 1) * w)) * S) by ring. apply Rmult_le_compat_r; [lra|]. apply Rplus_le_compat.
  - apply Rmult_le_compat_l; [exact V|]. assert (w * ((2 * k + 3) * (k + 1) * w) <= w * 1) by (apply Rmult_le_compat_l; lra). lra.
  - assert (e * (1 / 2) <= e * (1 - (k + 1) * w)) by (apply Rmult_le_compat_l; lra). lra.
Qed.
Lemma constant_weights v (I : list R) b : map (fun p => rnd (fst p * snd p)) (combine (map (fun _ => v) I) (net_fl I b)) = map (fun w => rnd (v * w)) (net_fl I b).
Proof. unfold net_fl. induction I as [|i I IH]; [reflexivity|]. cbn [map combine fst snd]. f_equal. exact IH. Qed.
Lemma net_same y : Forall double y -> net_fl y 0 = y.
Proof. intros D. unfold net_fl. rewrite <- (map_id y) at 2. apply map_ext_in. intros w W. rewrite Rminus_0_r. apply rnd_double. exact (proj1 (Forall_forall _ _) D w W). Qed.
(** The integral of doubles that are not negative. *)
Lemma trapz_close order y c : adds order -> Forall double y -> Forall (fun v => 0 <= v) y -> Forall double c -> rising c -> List.length c = List.length y -> INR (List.length y) <= 10 ^ 6 ->
  Rabs (trapz_fl order y c - area y c) <= (INR (List.length y) + 5) * u * area y c + INR (List.length y) * (4 * eta).
Proof.
  intros O Dy Y Dc C L N. assert (T := trapz_near order y 0 c O Dy dzero Dc L). cbv zeta in T. rewrite (net_same y Dy) in T. rewrite (map_ext_in _ (fun v => v)) in T by (intros; apply Rminus_0_r). rewrite map_id, (size_area y c Y C) in T. destruct T as (_ & E & T).
  assert (G := growth_bound (List.length y + 4)). rewrite plus_INR in G. replace (INR 4) with 4 in G by (cbn; lra). specialize (G ltac:(lra)). assert (n0 := pos_INR (List.length y)). set (n := INR (List.length y)) in *. set (g := (1 + u) ^ (List.length y + 4)) in *. clearbody n g. assert (A0 := area_pos y c Y C). assert (U := u_small). assert (H := eta_pos).
  assert (g <= 2). { assert ((n + 4 + 1) * u <= (10 ^ 6 + 5) * / 10 ^ 15) by (apply Rmult_le_compat; lra). lra. }
  apply Rle_trans with (1 := T). assert ((g - 1) * area y c <= (n + 4 + 1) * u * area y c) by (apply Rmult_le_compat_r; lra). assert (g * (n * (2 * eta)) <= 2 * (n * (2 * eta))) by (apply Rmult_le_compat_r; lra). lra.
Qed.
Lemma half z : bpow radix2 z = 2 * bpow radix2 (z - 1).
Proof. replace z with (1 + (z - 1))%Z at 1 by lia. rewrite bpow_plus. reflexivity. Qed.
(** Every coordinate the same. *)
Lemma constant_close order y c v p : adds order -> Forall double y -> Forall (fun w => 0 <= w) y -> Forall double c -> rising c -> List.length c = List.length y -> INR (List.length y) <= 10 ^ 6 -> Forall (fun z => Rabs z <= bpow radix2 100) c ->
  bpow radix2 (-500) <= trapz_fl order y c -> 0 <= v -> p = rnd (trapz_fl order (map (fun w => rnd (v * w)) y) c / trapz_fl order y c) -> Rabs (p - v) <= (2 * INR (List.length y) + 15) * u * v + bpow radix2 (-400).
Proof.
  intros O Dy Y Dc C L N B HT V ->. assert (U := u_small). assert (He := eta_pos). set (w := map _ y). assert (Lw : List.length w = List.length y) by apply map_length.
  assert (Dw : Forall double w) by (apply Forall_map, Forall_forall; intros; apply drnd). assert (W0 : Forall (fun z => 0 <= z) w) by (apply Forall_map; revert Y; apply Forall_impl; intros a A; apply rnd_nonneg, Rmult_le_pos; assumption).
  assert (T1 := trapz_close order y c O Dy Y Dc C L N). assert (T2 := trapz_close order w c O Dw W0 Dc C ltac:(congruence) ltac:(rewrite Lw; exact N)). rewrite Lw in T2.
  assert (Bc : Forall (fun z => z <= bpow radix2 100) c) by (revert B; apply Forall_impl; intros a A; apply Rabs_le_inv in A; lra). assert (T3 := area_scaled v (bpow radix2 100) V y c Y C Bc). fold w in T3.
  assert (Hh : bpow radix2 100 - hd (bpow radix2 100) c <= bpow radix2 101). { rewrite (half 101). assert (P := bpow_gt_0 radix2 100). destruct B as [|z c' Z]; cbn [hd]; [change (101 - 1)%Z with 100%Z; lra|]. apply Rabs_le_inv in Z. change (101 - 1)%Z with 100%Z. lra. }
  assert (n0 := pos_INR (List.length y)). assert (A0 := area_pos y c Y C). assert (A1 := area_pos w c W0 C).
  assert (F : eta * (bpow radix2 100 - hd (bpow radix2 100) c) <= bpow radix2 (-974)). { unfold eta in *. replace (-974)%Z with (-1075 + 101)%Z by lia. rewrite bpow_plus. apply Rmult_le_compat_l; lra. }
  assert (E : INR (List.length y) * (4 * eta) <= bpow radix2 (-1053)). { unfold eta in *. replace (-1053)%Z with (22 + -1075)%Z by lia. rewrite bpow_plus. replace (bpow radix2 22) with 4194304 by (cbn; lra). rewrite <- Rmult_assoc. apply Rmult_le_compat_r; lra. }
  assert (Ue : u = bpow radix2 (-53)). { unfold u. change (-53)%Z with (Z.opp 53). rewrite bpow_opp. f_equal. cbn [bpow]. rewrite (pow_IZR 2 53). reflexivity. }
  assert (He2 : eta <= bpow radix2 (-402)) by (apply bpow_le; lia).
  set (n := INR (List.length y)) in *. set (S := area y c) in *. set (A := area w c) in *. set (T := trapz_fl order y c) in *. set (W := trapz_fl order w c) in *. set (f := eta * _) in *. set (e1 := n * (4 * eta)) in *.
  assert (e0 : 0 <= e1) by (unfold e1; apply Rmult_le_pos; lra). assert (f0 : bpow radix2 (-974) > 0) by apply bpow_gt_0. clearbody f e1 n S A T W.
  assert (ku : (n + 5) * u <= / 10 ^ 8). { apply Rle_trans with ((10 ^ 6 + 5) * / 10 ^ 15); [apply Rmult_le_compat; lra|lra]. } assert (ku0 : 0 <= (n + 5) * u) by (apply Rmult_le_pos; lra).
  assert (HS : bpow radix2 (-501) <= S). { assert (Q := half (-500)). change (-500 - 1)%Z with (-501)%Z in Q. assert (Q' : bpow radix2 (-1053) <= bpow radix2 (-503)) by (apply bpow_le; lia). assert (Q2 := half (-501)). assert (Q3 := half (-502)). change (-501 - 1)%Z with (-502)%Z in Q2. change (-502 - 1)%Z with (-503)%Z in Q3.
    assert (X : (n + 5) * u * S <= / 10 ^ 8 * S) by (apply Rmult_le_compat_r; lra). apply Rabs_le_inv in T1. assert (P := bpow_gt_0 radix2 (-503)). lra. }
  assert (S0 : 0 < S) by (apply Rlt_le_trans with (2 := HS); apply bpow_gt_0).
  assert (HE : e1 <= u * S / 2). { apply Rle_trans with (1 := E). apply Rle_trans with (bpow radix2 (-53) * bpow radix2 (-501) / 2). - rewrite <- bpow_plus, (half (-53 + -501)). assert (bpow radix2 (-1053) <= bpow radix2 (-53 + -501 - 1)) by (apply bpow_le; lia). lra. - rewrite <- Ue. assert (u * bpow radix2 (-501) <= u * S) by (apply Rmult_le_compat_l; lra). lra. }
  assert (Hf : 2 * bpow radix2 (-974) + e1 <= bpow radix2 (-402) * S). { apply Rle_trans with (bpow radix2 (-402) * bpow radix2 (-501)); [|apply Rmult_le_compat_l; [apply bpow_ge_0|exact HS]]. rewrite <- bpow_plus. assert (Q := half (-972)). change (-972 - 1)%Z with (-973)%Z in Q. assert (Q2 := half (-973)). change (-973 - 1)%Z with (-974)%Z in Q2.
    assert (bpow radix2 (-1053) <= bpow radix2 (-974)) by (apply bpow_le; lia). assert (bpow radix2 (-972) <= bpow radix2 (-402 + -501)) by (apply bpow_le; lia). lra. }
  assert (vS : 0 <= v * S) by (apply Rmult_le_pos; lra). assert (uvS : 0 <= u * (v * S)) by (apply Rmult_le_pos; lra).
  assert (R := ratio_close v S T W (n + 5) (bpow radix2 (-402)) u S0 V ltac:(lra) (bpow_ge_0 _ _) ltac:(lra)).
  assert (K : (2 * (n + 5) + 3) * (n + 5 + 1) * u <= 1). { apply Rle_trans with ((2 * (10 ^ 6 + 5) + 3) * (10 ^ 6 + 5 + 1) * / 10 ^ 15); [|lra]. apply Rmult_le_compat; try lra; [apply Rmult_le_pos; lra|]. apply Rmult_le_compat; lra. }
  assert (H1 : Rabs (W - v * T) <= (v * ((2 * (n + 5) + 2) * u) + bpow radix2 (-402)) * S).
  { replace (W - v * T) with ((W - A) + (A - v * S) + v * (S - T)) by ring. assert (Z1 : Rabs (v * (S - T)) <= v * ((n + 5) * u * S + e1)) by (rewrite Rabs_mult, (Rabs_right v), Rabs_minus_sym by lra; apply Rmult_le_compat_l; lra).
    assert (Z2 : v * e1 <= v * (u * S / 2)) by (apply Rmult_le_compat_l; lra).
    assert (Z3 : A <= v * S + u * v * S + bpow radix2 (-974)) by (apply Rabs_le_inv in T3; lra). assert (Z4 : (n + 5) * u * A <= (n + 5) * u * (v * S + u * v * S + bpow radix2 (-974))) by (apply Rmult_le_compat_l; lra).
    assert (Z5 : (n + 5) * u * bpow radix2 (-974) <= 1 * bpow radix2 (-974)) by (apply Rmult_le_compat_r; lra). assert (Z6 : (n + 5) * u * (u * (v * S)) <= 1 / 2 * (u * (v * S))) by (apply Rmult_le_compat_r; lra).
    assert (Z7 := Rabs_triang (W - A + (A - v * S)) (v * (S - T))). assert (Z8 := Rabs_triang (W - A) (A - v * S)). lra. }
  assert (H2 : S * (1 - (n + 5 + 1) * u) <= T). { apply Rabs_le_inv in T1. assert (0 <= u * S) by (apply Rmult_le_pos; lra). lra. }
  specialize (R K H1 H2). assert (P := rnd_error (W / T)). fold u eta in P. set (r := W / T) in *. clearbody r. set (p := rnd r) in *. clearbody p. set (q := bpow radix2 (-402)) in *.
  assert (Q400 : bpow radix2 (-400) = 4 * q). { unfold q. rewrite (half (-400)). change (-400 - 1)%Z with (-401)%Z. rewrite (half (-401)). change (-401 - 1)%Z with (-402)%Z. lra. } rewrite Q400. assert (q0 : 0 < q) by apply bpow_gt_0. clearbody q.
  assert (X : v * ((2 * (n + 5) + 3) * u) <= v * 1) by (apply Rmult_le_compat_l; [exact V|lra]). assert (Hr : Rabs r <= 2 * v + 2 * q). { replace r with (v + (r - v)) by ring. apply Rle_trans with (1 := Rabs_triang _ _). rewrite (Rabs_right v) by lra. lra. }
  assert (Ur : u * Rabs r <= u * (2 * v + 2 * q)) by (apply Rmult_le_compat_l; lra). assert (uq : u * q <= 1 / 4 * q) by (apply Rmult_le_compat_r; lra). replace (p - v) with ((p - r) + (r - v)) by ring. apply Rle_trans with (1 := Rabs_triang _ _). lra.
Qed.
Lemma integrate_one order before after c I b t : Forall unchanging before -> Forall unchanging after -> integrate_fl order (before ++ c :: after) I b = Ok t -> t = trapz_fl order (net_fl I b) c.
Proof.
  intros B A T. apply integrate_val in T.
  assert (K : forall y l r, double r -> Forall unchanging l -> fold_left (fun r c => rnd (r + trapz_fl order y c)) l r = r).
  { intros y l r D F. induction F as [|z l (v & V) F IH]; [reflexivity|]. cbn [fold_left]. rewrite (constant_pieces order y z v V), Rplus_0_r, rnd_double by exact D. exact IH. }
  rewrite fold_left_app in T. rewrite (K _ _ _ dzero B) in T. cbn [fold_left] in T. rewrite Rplus_0_l in T. rewrite K in T by (try apply drnd; exact A). rewrite rnd_double in T by (apply sum_double, pieces_double). exact T.
Qed.
Lemma unchanging_rising x : unchanging x -> rising x.
Proof. intros (v & V). induction x as [|a x IH]; [exact Logic.I|]. destruct x as [|a' x]; [exact Logic.I|]. split; [rewrite (V a), (V a') by (cbn; auto); lra|apply IH; intros w W; apply V; right; exact W]. Qed.

(** C116.  In a scan along one column with no intensity below the background the position lies between the lowest and the highest coordinate up to a relative error of
    twice the number of points and fifteen units, and 2^-400; the integrated intensity must not be extremely small. *)
Theorem C116_close : forall order before after c x I b lo hi t p, adds order -> Forall unchanging before -> Forall unchanging after -> rising c -> (forall z, In z c -> double z /\ Rabs z <= bpow radix2 100) ->
  List.length c = List.length I -> List.length x = List.length I -> INR (List.length I) <= 10 ^ 6 -> (forall v, In v I -> b <= v) -> (forall z, In z x -> lo <= z <= hi) ->
  integrate_fl order (before ++ c :: after) I b = Ok t -> bpow radix2 (-500) <= t -> position_fl order (before ++ c :: after) (before ++ c :: after) x I b = Ok (Some p) ->
  let d := (2 * INR (List.length I) + 15) * / 2 ^ 53 in lo - d * Rabs lo - bpow radix2 (-400) <= p <= hi + d * Rabs hi + bpow radix2 (-400).
Proof.
  intros order before after c x I b lo hi t p O B A C Hc Lc Lx N HI Hx T Ht P d. fold u in d. assert (Et := integrate_one order before after c I b t B A T). set (cs := before ++ c :: after) in *.
  assert (Ly : List.length (net_fl I b) = List.length I) by apply map_length. assert (Y : Forall (fun v => 0 <= v) (net_fl I b)) by (apply Forall_map, Forall_forall; intros v V; apply rnd_nonneg; specialize (HI v V); lra). assert (Dy : Forall double (net_fl I b)) by (apply Forall_map, Forall_forall; intros; apply drnd).
  assert (tn : t <> 0) by (assert (Z := bpow_gt_0 radix2 (-500)); lra). assert (NE : cs <> []) by (unfold cs; destruct before; discriminate).
  assert (K0 : forall v, 0 <= v -> exists q, position_fl order cs cs (map (fun _ => v) I) I b = Ok (Some q) /\ Rabs (q - v) <= d * Rabs v + bpow radix2 (-400)).
  { intros v V. destruct (C116_answers order cs cs (map (fun _ => v) I) I b NE) as [_ X]. destruct (proj2 (X t T) tn) as [q Q]. exists q. split; [exact Q|]. destruct (position_one order before after c _ I b q B A Q) as [_ E]. rewrite constant_weights in E. rewrite (Rabs_right v) by lra. unfold d. rewrite <- Ly.
    apply (constant_close order _ c v q O Dy Y); try assumption; try (apply Forall_forall; intros z Z; apply (Hc z Z)); [congruence|rewrite Ly; exact N|rewrite <- Et; exact Ht]. }
  assert (K : forall v, exists q, position_fl order cs cs (map (fun _ => v) I) I b = Ok (Some q) /\ Rabs (q - v) <= d * Rabs v + bpow radix2 (-400)).
  { intros v. destruct (Rle_lt_dec 0 v) as [V|V]; [apply K0, V|]. destruct (K0 (- v) ltac:(lra)) as (q & Q & E). exists (- q). split; [|rewrite Rabs_Ropp in E; replace (- q - v) with (- (q - - v)) by ring; rewrite Rabs_Ropp; exact E].
    apply C116_opposite in Q. rewrite map_map in Q. rewrite (map_ext _ (fun _ => v)) in Q by (intros; apply Ropp_involutive). exact Q. }
  assert (Rc : Forall rising cs). { unfold cs. apply Forall_app. split; [revert B; apply Forall_impl; exact unchanging_rising|]. constructor; [exact C|revert A; apply Forall_impl; exact unchanging_rising]. }
  assert (FI : Forall (fun v => b <= v) I) by (apply Forall_forall; exact HI).
  assert (M : forall v (f : R -> R -> Prop), (forall z, In z x -> f v z) -> Forall2 f (map (fun _ => v) I) x). { intros v f F. clear - Lx F. revert I Lx. induction x as [|z x IH]; intros [|i I] L; try discriminate; constructor; [apply F; left; reflexivity|]. apply IH; [intros; apply F; right; assumption|]. injection L as L. exact L. }
  destruct (K lo) as (q & Q & E). destruct (K hi) as (q' & Q' & E'). apply Rabs_le_inv in E, E'.
  assert (M1 := C116_monotone order cs cs _ x I b q p Rc Rc FI (M lo Rle (fun z Z => proj1 (Hx z Z))) Q P).
  assert (M2 : Forall2 Rle x (map (fun _ => hi) I)) by (assert (M4 := M hi (fun a c => c <= a) (fun z Z => proj2 (Hx z Z))); clear - M4; induction M4; constructor; assumption). assert (M3 := C116_monotone order cs cs x _ I b p q' Rc Rc FI M2 P Q'). lra.
Qed.
Print Assumptions C116_close.

(** The case of [C116_range_refuted]: the position lies outside, but only by so much. *)
Example C116_close_case : exists h p, h = rnd (1 / 10) /\ position_fl ex_order [[h; h]; [0; 1]] [[h; h]; [0; 1]] [h; h] [3; 3] 0 = Ok (Some p) /\ h < p <= h + 19 * / 2 ^ 53 * h + bpow radix2 (-400).
Proof.
  destruct tenth_position as [E P]. cbv zeta in E, P. set (h := rnd (1 / 10)) in *. eexists h, _. split; [reflexivity|]. split; [exact P|].
  assert (H : h < IZR 7205759403792795 * bpow radix2 (-56)). { rewrite E. unfold P60. change (-56)%Z with (-60 + 4)%Z. rewrite bpow_plus. change (bpow radix2 4) with 16. assert (b0 := bpow_gt_0 radix2 (-60)). rewrite mult_IZR. change (IZR (2 ^ 4)) with 16. nra. }
  split; [exact H|]. assert (h0 : 0 < h). { rewrite E. apply Rmult_lt_0_compat; [apply IZR_lt; reflexivity|apply bpow_gt_0]. }
  assert (T : integrate_fl ex_order [[h; h]; [0; 1]] [3; 3] 0 = Ok 3).
  { rewrite integrate_ok by discriminate. f_equal. cbn [fold_left]. rewrite net3, (constant_pieces ex_order [3; 3] [h; h] h), (trapz_two 3 double3 double6), Rplus_0_r, rnd_zero, Rplus_0_l by (intros w [<-|[<-|[]]]; reflexivity). apply rnd_double, double3. }
  assert (D1 : double 1) by (replace 1 with (IZR 1 * bpow radix2 0) by (cbn; lra); apply dyadic_double; lia). assert (B1 : 1 <= bpow radix2 100) by (apply (bpow_le radix2 0); lia).
  destruct (C116_close ex_order [[h; h]] [] [0; 1] [h; h] [3; 3] 0 h h 3 _ chain_adds ltac:(repeat constructor; exists h; intros w [<-|[<-|[]]]; reflexivity) (Forall_nil _) ltac:(cbn; lra)
    ltac:(intros z [<-|[<-|[]]]; (split; [first [exact dzero|exact D1]|rewrite Rabs_right by lra; lra])) eq_refl eq_refl ltac:(cbn; lra) ltac:(intros v [<-|[<-|[]]]; lra) ltac:(intros z [<-|[<-|[]]]; lra) T ltac:(apply Rle_trans with (bpow radix2 0); [apply bpow_le; lia|cbn; lra]) P) as [_ U].
  rewrite (Rabs_right h) in U by lra. cbn [List.length INR] in U. lra.
Qed.

(** C116: the accuracy of a position. *)
From Coq Require Import List Arith ZArith Reals Lra Lia Psatz Permutation.
From Flocq Require Import Core.
From Verif Require Import Base EnergyFloatModel BinFloatProps PointsFloatProps BgFloatProps IntFloatModel IntFloatProps PosnFloatProps PosnCloseProps.
Import ListNotations.
Local Open Scope R_scope.

Section Points.
  Context {A : Type} (z w y : A -> R) (k D : R).
  Lemma D0 c : Forall (fun v => v <= D) c -> 0 <= eta * (D - hd D c).
  Proof. intros B. apply Rmult_le_pos; [apply Rlt_le, eta_pos|destruct B; cbn [hd]; lra]. Qed.
  Lemma area_near : forall l c, (forall a, In a l -> Rabs (z a - w a) <= k * y a + eta) -> rising c -> Forall (fun v => v <= D) c ->
    Rabs (area (map z l) c - area (map w l) c) <= k * area (map y l) c + eta * (D - hd D c).
  Proof.
    induction l as [|a l IH]; intros c H C B; [cbn [map area]; rewrite Rminus_0_r, Rabs_R0; assert (H0 := D0 c B); lra|]. destruct l as [|a' l]; [cbn [map area]; rewrite Rminus_0_r, Rabs_R0; assert (H0 := D0 c B); lra|].
    destruct c as [|c0 [|c1 c]]; [cbn [map area]; rewrite Rminus_0_r, Rabs_R0; assert (H0 := D0 _ B); lra|cbn [map area]; rewrite Rminus_0_r, Rabs_R0; assert (H0 := D0 _ B); lra|].
    inversion B as [|? ? B0 B']; subst. cbn in C. destruct C as [C0 C1]. specialize (IH (c1 :: c) (fun a I => H a (or_intror I)) C1 B'). assert (Ha := H a (or_introl eq_refl)). assert (Ha' := H a' (or_intror (or_introl eq_refl))).
    change (Rabs ((c1 - c0) * ((z a + z a') / 2) + area (map z (a' :: l)) (c1 :: c) - ((c1 - c0) * ((w a + w a') / 2) + area (map w (a' :: l)) (c1 :: c))) <= k * ((c1 - c0) * ((y a + y a') / 2) + area (map y (a' :: l)) (c1 :: c)) + eta * (D - c0)).
    cbn [hd] in IH. set (p := area (map z _) _) in *. set (q := area (map w _) _) in *. set (r := area (map y _) _) in *. clearbody p q r.
    assert (S : Rabs ((c1 - c0) * ((z a + z a') / 2 - (w a + w a') / 2)) <= (c1 - c0) * (k * ((y a + y a') / 2) + eta)) by (rewrite Rabs_mult, (Rabs_right (c1 - c0)) by lra; apply Rmult_le_compat_l; [lra|]; apply Rabs_le_inv in Ha, Ha'; apply Rabs_le; lra).
    replace (_ + p - _) with ((c1 - c0) * ((z a + z a') / 2 - (w a + w a') / 2) + (p - q)) by ring. apply Rle_trans with (1 := Rabs_triang _ _). lra.
  Qed.
  Lemma size_near : forall l c, (forall a, In a l -> Rabs (z a) <= k * y a + eta) -> rising c -> Forall (fun v => v <= D) c -> size (map z l) c <= k * area (map y l) c + eta * (D - hd D c).
  Proof.
    induction l as [|a l IH]; intros c H C B; [cbn [map area size]; assert (H0 := D0 c B); lra|]. destruct l as [|a' l]; [cbn [map area size]; assert (H0 := D0 c B); lra|].
    destruct c as [|c0 [|c1 c]]; [cbn [map area size]; assert (H0 := D0 _ B); lra|cbn [map area size]; assert (H0 := D0 _ B); lra|].
    inversion B as [|? ? B0 B']; subst. cbn in C. destruct C as [C0 C1]. specialize (IH (c1 :: c) (fun a I => H a (or_intror I)) C1 B'). assert (Ha := H a (or_introl eq_refl)). assert (Ha' := H a' (or_intror (or_introl eq_refl))).
    change (Rabs (c1 - c0) * ((Rabs (z a) + Rabs (z a')) / 2) + size (map z (a' :: l)) (c1 :: c) <= k * ((c1 - c0) * ((y a + y a') / 2) + area (map y (a' :: l)) (c1 :: c)) + eta * (D - c0)).
    cbn [hd] in IH. rewrite (Rabs_right (c1 - c0)) by lra. assert (S : (c1 - c0) * ((Rabs (z a) + Rabs (z a')) / 2) <= (c1 - c0) * (k * ((y a + y a') / 2) + eta)) by (apply Rmult_le_compat_l; lra). lra.
  Qed.
End Points.
Lemma quotient_close q M S T W k e w : 0 < S -> 0 <= M -> 0 < w -> 0 <= e -> 0 <= k -> (2 * k + 3) * (k + 1) * w <= 1 -> Rabs (W - q * T) <= (M * ((2 * k + 2) * w) + e) * S -> S * (1 - (k + 1) * w) <= T ->
  Rabs (W / T - q) <= M * ((2 * k + 3) * w) + 2 * e.
Proof.
  intros HS V HW E K H A B. assert (h : (k + 1) * w <= 1 / 3). { assert (0 <= k * ((k + 1) * w)) by (apply Rmult_le_pos; [lra|apply Rmult_le_pos; lra]). lra. }
  assert (T0 : 0 < T). { apply Rlt_le_trans with (2 := B). apply Rmult_lt_0_compat; lra. }
  assert (R := ratio_close M S T (M * T + Rabs (W - q * T)) k e w HS V HW E K H). replace (M * T + Rabs (W - q * T) - M * T) with (Rabs (W - q * T)) in R by ring. rewrite Rabs_Rabsolu in R. specialize (R A B).
  replace ((M * T + Rabs (W - q * T)) / T - M) with (Rabs (W / T - q)) in R; [rewrite Rabs_Rabsolu in R; exact R|].
  replace (W / T - q) with ((W - q * T) * / T) by (field; lra). rewrite Rabs_mult, (Rabs_right (/ T)) by (apply Rle_ge, Rlt_le, Rinv_0_lt_compat; lra). field. lra.
Qed.

(** C116.  In a scan along one column with no intensity below the background the position differs from the exact centre of mass by at most twice the number of points and sixteen units of
    the largest coordinate, and 2^-400; the integrated intensity must not be extremely small. *)
Theorem C116_accurate : forall order before after c x I b M t p, adds order -> Forall unchanging before -> Forall unchanging after -> rising c -> (forall z, In z c -> double z /\ Rabs z <= bpow radix2 100) ->
  List.length c = List.length I -> List.length x = List.length I -> INR (List.length I) <= 10 ^ 6 -> double b -> (forall v, In v I -> double v /\ b <= v) -> 0 <= M -> (forall z, In z x -> Rabs z <= M) ->
  integrate_fl order (before ++ c :: after) I b = Ok t -> bpow radix2 (-500) <= t -> position_fl order (before ++ c :: after) (before ++ c :: after) x I b = Ok (Some p) ->
  let y := map (fun v => v - b) I in 0 < area y c /\ Rabs (p - area (weighted x y) c / area y c) <= (2 * INR (List.length I) + 16) * / 2 ^ 53 * M + bpow radix2 (-400).
Proof.
  intros order before after c x I b M t p O B A C Hc Lc Lx N Db HI M0 Hx T Ht P y. fold u. assert (Et := integrate_one order before after c I b t B A T). destruct (position_one order before after c x I b p B A P) as [_ Ep].
  assert (U := u_small). assert (He := eta_pos). set (pts := combine x I). set (yf := fun a : R * R => snd a - b). set (wf := fun a : R * R => fst a * (snd a - b)). set (zf := fun a : R * R => rnd (fst a * rnd (snd a - b))).
  assert (Ls : map snd pts = I) by (clear - Lx; subst pts; revert I Lx; induction x as [|a x IH]; intros [|i I] L; try discriminate; [reflexivity|]; injection L as L; cbn; f_equal; apply IH, L).
  assert (Ey : y = map yf pts) by (unfold y; rewrite <- Ls at 1; rewrite map_map; reflexivity).
  assert (Ez : map (fun p => rnd (fst p * snd p)) (combine x (net_fl I b)) = map zf pts) by (unfold net_fl, pts, zf; clear; revert I; induction x as [|a x IH]; intros [|i I]; try reflexivity; cbn [map combine fst snd]; f_equal; apply IH).
  assert (Ew : weighted x y = map wf pts) by (unfold weighted, y, pts, wf; clear; revert I; induction x as [|a x IH]; intros [|i I]; try reflexivity; cbn [map combine fst snd]; f_equal; apply IH).
  assert (Lp : List.length pts = List.length I) by (rewrite <- Ls; symmetry; apply map_length).
  assert (Y : Forall (fun v => 0 <= v) y) by (apply Forall_map, Forall_forall; intros v V; destruct (HI v V); lra). assert (Dc : Forall double c) by (apply Forall_forall; intros z Z; apply (Hc z Z)). assert (DI : Forall double I) by (apply Forall_forall; intros v V; apply (HI v V)).
  assert (Pt : forall a, In a pts -> Rabs (fst a) <= M /\ 0 <= yf a /\ Rabs (zf a - wf a) <= (2 * u + u * u) * M * yf a + eta).
  { intros [a v] Q. assert (Qa := in_combine_l _ _ _ _ Q). assert (Qv := in_combine_r _ _ _ _ Q). destruct (HI v Qv) as [Dv Bv]. assert (Xa := Hx a Qa). unfold yf, wf, zf. cbn [fst snd]. split; [exact Xa|]. split; [lra|].
    assert (R1 := plus_rel v (- b) Dv (generic_format_opp _ _ _ Db)). change (v + - b) with (v - b) in R1. rewrite (Rabs_right (v - b)) in R1 by lra. assert (g0 := rnd_nonneg (v - b) ltac:(lra)). set (g := rnd (v - b)) in *. clearbody g.
    assert (R2 := rnd_error (a * g)). fold u eta in R2. rewrite Rabs_mult, (Rabs_right g) in R2 by lra. set (q := v - b) in *. assert (q0 : 0 <= q) by (unfold q; lra). clearbody q.
    assert (Hg : g <= (1 + u) * q) by (apply Rabs_le_inv in R1; lra). assert (X1 : Rabs a * g <= M * ((1 + u) * q)) by (apply Rmult_le_compat; try lra; apply Rabs_pos). assert (X2 : u * (Rabs a * g) <= u * (M * ((1 + u) * q))) by (apply Rmult_le_compat_l; lra).
    assert (X3 : Rabs (a * (g - q)) <= M * (u * q)) by (rewrite Rabs_mult; apply Rmult_le_compat; try apply Rabs_pos; assumption). replace (rnd (a * g) - a * q) with ((rnd (a * g) - a * g) + a * (g - q)) by ring. apply Rle_trans with (1 := Rabs_triang _ _). lra. }
  assert (Bc : Forall (fun z => z <= bpow radix2 100) c) by (apply Forall_forall; intros z Z; destruct (Hc z Z) as [_ H]; apply Rabs_le_inv in H; lra).
  assert (T3 := area_near zf wf yf ((2 * u + u * u) * M) (bpow radix2 100) pts c (fun a I => proj2 (proj2 (Pt a I))) C Bc).
  assert (Pw : forall a, In a pts -> Rabs (wf a) <= M * yf a) by (intros a Q; destruct (Pt a Q) as (Q1 & Q2 & _); unfold wf, yf in *; rewrite Rabs_mult, (Rabs_right (snd a - b)) by lra; apply Rmult_le_compat_r; lra).
  assert (T4 := size_near zf yf ((1 + 2 * u + u * u) * M) (bpow radix2 100) pts c). specialize (T4 ltac:(intros a Q; destruct (Pt a Q) as (_ & Q2 & Q3); specialize (Pw a Q); replace (zf a) with ((zf a - wf a) + wf a) by ring; apply Rle_trans with (1 := Rabs_triang _ _); lra) C Bc).
  assert (Hq : Rabs (area (map wf pts) c) <= M * area y c). { destruct (area_between (- M) M x y c) as [L1 L2]; try assumption; [apply Forall_forall; intros z Z; apply Rabs_le_inv, Hx, Z|unfold y; rewrite map_length; exact Lx|]. rewrite <- Ew. apply Rabs_le. lra. }
  assert (Dw : Forall double (map zf pts)) by (apply Forall_map, Forall_forall; intros; apply drnd).
  assert (N1 := trapz_near order I b c O DI Db Dc Lc). cbv zeta in N1. fold y in N1. rewrite (size_area y c Y C) in N1. assert (N2 := trapz_near order (map zf pts) 0 c O Dw dzero Dc ltac:(rewrite map_length; congruence)). cbv zeta in N2.
  rewrite (net_same _ Dw), map_length, Lp in N2. rewrite (map_ext (fun v => v - 0) (fun v => v)) in N2 by (intros; apply Rminus_0_r). rewrite map_id in N2. rewrite Ez in Ep. rewrite Ew. rewrite <- Ey in T3, T4.
  assert (G := growth_bound (List.length I + 4)). rewrite plus_INR in G. replace (INR 4) with 4 in G by (cbn; lra). specialize (G ltac:(lra)). assert (n0 := pos_INR (List.length I)). destruct N1 as (_ & _ & N1). destruct N2 as (_ & _ & N2).
  assert (Hh : bpow radix2 100 - hd (bpow radix2 100) c <= bpow radix2 101). { rewrite (half 101). change (101 - 1)%Z with 100%Z. assert (Q := bpow_gt_0 radix2 100). destruct c as [|z c']; cbn [hd]; [lra|]. destruct (Hc z (or_introl eq_refl)) as [_ Z]. apply Rabs_le_inv in Z. lra. }
  assert (F : eta * (bpow radix2 100 - hd (bpow radix2 100) c) <= bpow radix2 (-974)). { unfold eta in *. replace (-974)%Z with (-1075 + 101)%Z by lia. rewrite bpow_plus. apply Rmult_le_compat_l; lra. }
  assert (E : INR (List.length I) * (2 * eta) * 2 <= bpow radix2 (-1053)). { unfold eta in *. replace (-1053)%Z with (22 + -1075)%Z by lia. rewrite bpow_plus. replace (bpow radix2 22) with 4194304 by (cbn; lra). replace (INR (List.length I) * (2 * bpow radix2 (-1075)) * 2) with (INR (List.length I) * 4 * bpow radix2 (-1075)) by ring. apply Rmult_le_compat_r; lra. }
  assert (Ue : u = bpow radix2 (-53)). { unfold u. change (-53)%Z with (Z.opp 53). rewrite bpow_opp. f_equal. cbn [bpow]. rewrite (pow_IZR 2 53). reflexivity. }
  assert (He2 : eta <= bpow radix2 (-402)) by (apply bpow_le; lia). rewrite <- Et in N1, Ep.
  assert (A0 := area_pos y c Y C). assert (F0 := D0 (bpow radix2 100) c Bc).
  set (n := INR (List.length I)) in *. set (S := area y c) in *. set (A1 := area (map zf pts) c) in *. set (A2 := area (map wf pts) c) in *. set (Z1 := size (map zf pts) c) in *. set (W := trapz_fl order (map zf pts) c) in *. set (f := eta * (bpow radix2 100 - _)) in *. set (g := (1 + u) ^ (List.length I + 4)) in *.
  assert (g1 : g <= 2). { assert ((n + 4 + 1) * u <= (10 ^ 6 + 5) * / 10 ^ 15) by (apply Rmult_le_compat; lra). lra. } assert (g0 : 1 <= g) by (apply pow_R1_Rle; lra).
  assert (E1 : g * (n * (2 * eta)) <= bpow radix2 (-1053)). { assert (0 <= n * (2 * eta)) by (apply Rmult_le_pos; lra). assert (g * (n * (2 * eta)) <= 2 * (n * (2 * eta))) by (apply Rmult_le_compat_r; lra). lra. }
  set (e1 := g * (n * (2 * eta))) in *. clearbody e1 f n S A1 A2 Z1 W g. clear E.
  assert (ku : (n + 5) * u <= / 10 ^ 8). { apply Rle_trans with ((10 ^ 6 + 5) * / 10 ^ 15); [apply Rmult_le_compat; lra|lra]. } assert (ku0 : 0 <= (n + 5) * u) by (apply Rmult_le_pos; lra).
  assert (T1 : Rabs (t - S) <= (n + 5) * u * S + bpow radix2 (-1053)). { apply Rle_trans with (1 := N1). assert ((g - 1) * S <= (n + 4 + 1) * u * S) by (apply Rmult_le_compat_r; lra). lra. } clear N1.
  assert (HS : bpow radix2 (-501) <= S). { assert (Q := half (-500)). change (-500 - 1)%Z with (-501)%Z in Q. assert (Q' : bpow radix2 (-1053) <= bpow radix2 (-503)) by (apply bpow_le; lia). assert (Q2 := half (-501)). assert (Q3 := half (-502)). change (-501 - 1)%Z with (-502)%Z in Q2. change (-502 - 1)%Z with (-503)%Z in Q3.
    assert (X : (n + 5) * u * S <= / 10 ^ 8 * S) by (apply Rmult_le_compat_r; lra). apply Rabs_le_inv in T1. assert (Q4 := bpow_gt_0 radix2 (-503)). lra. }
  assert (S0 : 0 < S) by (apply Rlt_le_trans with (2 := HS); apply bpow_gt_0). split; [exact S0|].
  assert (HE : bpow radix2 (-1053) <= u * S / 2). { apply Rle_trans with (bpow radix2 (-53) * bpow radix2 (-501) / 2). - rewrite <- bpow_plus, (half (-53 + -501)). assert (bpow radix2 (-1053) <= bpow radix2 (-53 + -501 - 1)) by (apply bpow_le; lia). lra. - rewrite <- Ue. assert (u * bpow radix2 (-501) <= u * S) by (apply Rmult_le_compat_l; lra). lra. }
  assert (Hf : 2 * bpow radix2 (-974) + bpow radix2 (-1053) <= bpow radix2 (-402) * S). { apply Rle_trans with (bpow radix2 (-402) * bpow radix2 (-501)); [|apply Rmult_le_compat_l; [apply bpow_ge_0|exact HS]]. rewrite <- bpow_plus. assert (Q := half (-972)). change (-972 - 1)%Z with (-973)%Z in Q. assert (Q2 := half (-973)). change (-973 - 1)%Z with (-974)%Z in Q2.
    assert (bpow radix2 (-1053) <= bpow radix2 (-974)) by (apply bpow_le; lia). assert (bpow radix2 (-972) <= bpow radix2 (-402 + -501)) by (apply bpow_le; lia). lra. }
  assert (MS : 0 <= M * S) by (apply Rmult_le_pos; lra). assert (uMS : 0 <= u * (M * S)) by (apply Rmult_le_pos; lra). set (q := A2 / S) in *.
  assert (Q2 : A2 = q * S) by (unfold q; field; lra). assert (Q3 : Rabs q <= M). { unfold q, Rdiv. rewrite Rabs_mult, (Rabs_right (/ S)) by (apply Rle_ge, Rlt_le, Rinv_0_lt_compat; lra). apply (Rmult_le_reg_r S); [exact S0|]. rewrite Rmult_assoc, Rinv_l by lra. lra. } clearbody q.
  assert (f1 := bpow_gt_0 radix2 (-974)). assert (e2 := bpow_gt_0 radix2 (-1053)).
  assert (K : (2 * (n + 11 / 2) + 3) * (n + 11 / 2 + 1) * u <= 1). { apply Rle_trans with ((2 * (10 ^ 6 + 11 / 2) + 3) * (10 ^ 6 + 11 / 2 + 1) * / 10 ^ 15); [|lra]. apply Rmult_le_compat; try lra; [apply Rmult_le_pos; lra|]. apply Rmult_le_compat; lra. }
  assert (Z0 : 0 <= (1 + 2 * u + u * u) * M * S + bpow radix2 (-974)). { assert (0 <= u * u) by (apply Rmult_le_pos; lra). assert (0 <= u * (u * (M * S))) by (apply Rmult_le_pos; lra). lra. }
  assert (H1 : Rabs (W - q * t) <= (M * ((2 * (n + 11 / 2) + 2) * u) + bpow radix2 (-402)) * S).
  { replace (W - q * t) with ((W - A1) + (A1 - A2) + q * (S - t)) by (rewrite Q2; ring). assert (X1 : Rabs (q * (S - t)) <= M * ((n + 5) * u * S + bpow radix2 (-1053))) by (rewrite Rabs_mult, (Rabs_minus_sym S t); apply Rmult_le_compat; try apply Rabs_pos; assumption).
    assert (X2 : M * bpow radix2 (-1053) <= M * (u * S / 2)) by (apply Rmult_le_compat_l; lra).
    assert (X3 : (g - 1) * Z1 <= (n + 5) * u * ((1 + 2 * u + u * u) * M * S + bpow radix2 (-974))). { apply Rle_trans with ((g - 1) * ((1 + 2 * u + u * u) * M * S + bpow radix2 (-974))); [apply Rmult_le_compat_l; lra|apply Rmult_le_compat_r; lra]. }
    assert (X4 : (n + 5) * u * bpow radix2 (-974) <= 1 * bpow radix2 (-974)) by (apply Rmult_le_compat_r; lra). assert (X5 : (n + 5) * u * (u * (M * S)) <= / 10 ^ 8 * (u * (M * S))) by (apply Rmult_le_compat_r; lra).
    assert (X6 : u * (u * (M * S)) <= / 10 ^ 15 * (u * (M * S))) by (apply Rmult_le_compat_r; lra). assert (X7 : (n + 5) * u * (u * (u * (M * S))) <= / 10 ^ 8 * (u * (u * (M * S)))) by (apply Rmult_le_compat_r; [apply Rmult_le_pos; lra|lra]).
    assert (Y1 := Rabs_triang (W - A1 + (A1 - A2)) (q * (S - t))). assert (Y2 := Rabs_triang (W - A1) (A1 - A2)). lra. }
  assert (H2 : S * (1 - (n + 11 / 2 + 1) * u) <= t). { apply Rabs_le_inv in T1. assert (0 <= u * S) by (apply Rmult_le_pos; lra). lra. }
  assert (R := quotient_close q M S t W (n + 11 / 2) (bpow radix2 (-402)) u S0 M0 ltac:(lra) (bpow_ge_0 _ _) ltac:(lra) K H1 H2). subst p. assert (P1 := rnd_error (W / t)). fold u eta in P1. set (r := W / t) in *. clearbody r. set (p := rnd r) in *. clearbody p. set (h := bpow radix2 (-402)) in *.
  assert (Q400 : bpow radix2 (-400) = 4 * h). { unfold h. rewrite (half (-400)). change (-400 - 1)%Z with (-401)%Z. rewrite (half (-401)). change (-401 - 1)%Z with (-402)%Z. lra. } rewrite Q400. assert (h0 : 0 < h) by apply bpow_gt_0. clearbody h.
  assert (X : M * ((2 * (n + 11 / 2) + 3) * u) <= M * (/ 10 ^ 7)) by (apply Rmult_le_compat_l; [exact M0|lra]). assert (Hr : Rabs r <= (1 + / 10 ^ 7) * M + 2 * h). { replace r with (q + (r - q)) by ring. apply Rle_trans with (1 := Rabs_triang _ _). lra. }
  assert (Ur : u * Rabs r <= u * ((1 + / 10 ^ 7) * M + 2 * h)) by (apply Rmult_le_compat_l; lra). assert (uh : u * h <= 1 / 4 * h) by (apply Rmult_le_compat_r; lra). assert (uM : 0 <= u * M) by (apply Rmult_le_pos; lra). replace (p - q) with ((p - r) + (r - q)) by ring. apply Rle_trans with (1 := Rabs_triang _ _). lra.
Qed.
Print Assumptions C116_accurate.
(** Three counts at each of two points at h = 0.1 in a scan of the energy from 0 to 1: the exact centre is h. *)
Example C116_accurate_case : let h := rnd (1 / 10) in exists p, position_fl ex_order [[h; h]; [0; 1]] [[h; h]; [0; 1]] [h; h] [3; 3] 0 = Ok (Some p) /\ p <> h /\ Rabs (p - h) <= 20 * / 2 ^ 53 * h + bpow radix2 (-400).
Proof.
  destruct C116_close_case as (h & p & E & P & H & _). cbv zeta. rewrite <- E. exists p. split; [exact P|]. split; [lra|]. assert (h0 : 0 <= h) by (rewrite E; apply rnd_nonneg; lra).
  assert (T : integrate_fl ex_order [[h; h]; [0; 1]] [3; 3] 0 = Ok 3).
  { rewrite integrate_ok by discriminate. f_equal. cbn [fold_left]. rewrite net3, (constant_pieces ex_order [3; 3] [h; h] h), (trapz_two 3 double3 double6), Rplus_0_r, rnd_zero, Rplus_0_l by (intros w [<-|[<-|[]]]; reflexivity). apply rnd_double, double3. }
  assert (D1 : double 1) by (replace 1 with (IZR 1 * bpow radix2 0) by (cbn; lra); apply dyadic_double; lia). assert (B1 : 1 <= bpow radix2 100) by (apply (bpow_le radix2 0); lia).
  destruct (C116_accurate ex_order [[h; h]] [] [0; 1] [h; h] [3; 3] 0 h 3 p chain_adds ltac:(repeat constructor; exists h; intros w [<-|[<-|[]]]; reflexivity) (Forall_nil _) ltac:(cbn; lra)
    ltac:(intros z [<-|[<-|[]]]; (split; [first [exact dzero|exact D1]|rewrite Rabs_right by lra; lra])) eq_refl eq_refl ltac:(cbn; lra) dzero ltac:(intros v [<-|[<-|[]]]; (split; [exact double3|lra])) h0 ltac:(intros z [<-|[<-|[]]]; rewrite Rabs_right; lra) T ltac:(apply Rle_trans with (bpow radix2 0); [apply bpow_le; lia|cbn; lra]) P) as [S U].
  replace (area _ _ / area _ _) with h in U by (cbn; field). cbn [List.length INR] in U. lra.
Qed.

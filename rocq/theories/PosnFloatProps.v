(** C116: peak position in floating-point arithmetic. *)
From Coq Require Import List Arith ZArith Reals Lra Lia Psatz Permutation.
From Flocq Require Import Core.
From Verif Require Import Base EnergyFloatModel BinFloatProps PointsFloatProps BgFloatProps IntFloatModel IntFloatProps.
Import ListNotations.
Local Open Scope R_scope.

(** C116.  No position for a single point (an exception) or for an integral of zero (nan); otherwise there is one. *)
Theorem C116_answers : forall order columns hkle x I b, hkle <> [] ->
  (List.length I = 1%nat -> position_fl order columns hkle x I b = Err ValueError) /\
  (forall t, integrate_fl order hkle I b = Ok t -> (t = 0 -> position_fl order columns hkle x I b = Ok None) /\ (t <> 0 -> exists p, position_fl order columns hkle x I b = Ok (Some p))).
Proof.
  intros order columns hkle x I b N. unfold position_fl. split.
  - intros L. rewrite (proj1 (C115_answers order hkle I b N) L). reflexivity.
  - intros t ->. cbn [bind]. destruct (Req_EM_T t 0); split; intros H; try contradiction; [reflexivity|eexists; reflexivity].
Qed.
Print Assumptions C116_answers.

Lemma weighted_mono x x' y : Forall2 Rle x x' -> Forall (fun v => 0 <= v) y -> Forall2 Rle (map (fun p => rnd (fst p * snd p)) (combine x y)) (map (fun p => rnd (fst p * snd p)) (combine x' y)).
Proof.
  intros F. revert y. induction F as [|a b l m H F IH]; intros [|v y] P; cbn; try constructor; inversion P; subst; [|apply IH; assumption]. apply rnd_mono, Rmult_le_compat_r; assumption.
Qed.
(** C116.  The order of positions: a column nowhere larger than another has no larger position, for intensities not below the background. *)
Theorem C116_monotone : forall order columns hkle x x' I b p p', Forall rising columns -> Forall rising hkle -> Forall (fun v => b <= v) I -> Forall2 Rle x x' ->
  position_fl order columns hkle x I b = Ok (Some p) -> position_fl order columns hkle x' I b = Ok (Some p') -> p <= p'.
Proof.
  intros order columns hkle x x' I b p p' R H F X. unfold position_fl. destruct (integrate_fl order hkle I b) as [t|] eqn:E; [|discriminate]. cbn [bind]. assert (T := C115_sign _ _ _ _ _ H F E). destruct (Req_EM_T t 0) as [|N]; [discriminate|]. intros [=<-] [=<-].
  assert (P : Forall (fun v => 0 <= v) (net_fl I b)) by (apply Forall_map, Forall_forall; intros v V; rewrite Forall_forall in F; apply rnd_nonneg; specialize (F v V); lra).
  assert (W := weighted_mono _ _ _ X P). set (w := map _ _) in *. set (w' := map _ (combine x' _)) in *. clearbody w w'. assert (TI : 0 < / t) by (apply Rinv_0_lt_compat; lra).
  assert (K : forall cs p q, Forall rising cs -> p <= q -> fold_left (fun r c => rnd (r + rnd (trapz_fl order w c / t))) cs p <= fold_left (fun r c => rnd (r + rnd (trapz_fl order w' c / t))) cs q); [|apply K; [exact R|lra]].
  induction cs as [|c cs IH]; intros p q RC PQ; cbn [fold_left]; [exact PQ|]. inversion RC; subst. apply IH; [assumption|]. apply rnd_mono, Rplus_le_compat; [exact PQ|]. apply rnd_mono, Rmult_le_compat_r; [lra|]. apply trapz_mono; assumption.
Qed.
Print Assumptions C116_monotone.

(** C116.  Reversing the sign of a column reverses its position exactly. *)
Theorem C116_opposite : forall order columns hkle x I b p, position_fl order columns hkle x I b = Ok (Some p) -> position_fl order columns hkle (map Ropp x) I b = Ok (Some (- p)).
Proof.
  intros order columns hkle x I b p. unfold position_fl. destruct (integrate_fl order hkle I b) as [t|]; [|discriminate]. cbn [bind]. destruct (Req_EM_T t 0) as [|N]; [discriminate|]. intros [=<-]. do 2 f_equal.
  assert (W : forall x y, map (fun p => rnd (fst p * snd p)) (combine (map Ropp x) y) = map Ropp (map (fun p => rnd (fst p * snd p)) (combine x y))).
  { clear. induction x as [|a x IH]; intros [|v y]; cbn; try reflexivity. f_equal; [|apply IH]. rewrite Ropp_mult_distr_l_reverse. apply rnd_opp. }
  rewrite W. set (w := map _ (combine x _)). clearbody w.
  assert (A : forall y x, pieces (map Ropp y) x = map Ropp (pieces y x)).
  { clear. induction y as [|y0 y IH]; intros x; [reflexivity|]. destruct y as [|y1 y]; [reflexivity|]. destruct x as [|x0 [|x1 x]]; [reflexivity|reflexivity|]. cbn [map]. rewrite !pieces_unfold. cbn [map]. rewrite <- (IH (x1 :: x)). cbn [map]. f_equal.
    replace (- y1 + - y0) with (- (y1 + y0)) by ring. rewrite rnd_opp, Ropp_mult_distr_r_reverse, rnd_opp. unfold Rdiv. rewrite Ropp_mult_distr_l_reverse. apply rnd_opp. }
  assert (B : forall s l, add_up s (map Ropp l) = - add_up s l).
  { clear. induction s as [i|s IHs u IHu]; intros l; cbn [add_up]; [rewrite <- Ropp_0 at 1; apply map_nth|]. rewrite IHs, IHu, <- rnd_opp. f_equal. ring. }
  assert (T : forall c, trapz_fl order (map Ropp w) c = - trapz_fl order w c).
  { intros c. unfold trapz_fl, sum_fl. rewrite A. destruct (pieces w c) as [|q l]; [cbn; ring|]. rewrite <- B, map_length. reflexivity. }
  assert (F : forall cs q, fold_left (fun r c => rnd (r + rnd (trapz_fl order (map Ropp w) c / t))) cs (- q) = - fold_left (fun r c => rnd (r + rnd (trapz_fl order w c / t))) cs q).
  { induction cs as [|c cs IH]; intros q; cbn [fold_left]; [reflexivity|]. rewrite T, <- IH. apply (f_equal (fun z => fold_left _ cs z)). unfold Rdiv. rewrite Ropp_mult_distr_l_reverse, rnd_opp. set (z := rnd (trapz_fl order w c * / t)). rewrite <- (rnd_opp (q + z)). apply f_equal. ring. }
  rewrite <- F, Ropp_0. reflexivity.
Qed.
Print Assumptions C116_opposite.

Lemma constant_pieces order y x v : (forall w, In w x -> w = v) -> trapz_fl order y x = 0.
Proof.
  intros C. unfold trapz_fl, sum_fl. assert (P : Forall (fun p => p = 0) (pieces y x)).
  { revert x C. induction y as [|y0 y IH]; intros x C; [constructor|]. destruct y as [|y1 y]; [constructor|]. destruct x as [|x0 [|x1 x]]; [constructor|constructor|]. rewrite pieces_unfold. constructor; [|apply IH; intros w W; apply C; right; exact W].
    rewrite (C x0), (C x1) by (cbn; auto). replace (v - v) with 0 by ring. rewrite rnd_zero, Rmult_0_l, rnd_zero. unfold Rdiv. rewrite Rmult_0_l. apply rnd_zero. }
  destruct (pieces y x) as [|p l] eqn:Q; [reflexivity|]. generalize (order (List.length (p :: l))). intros s. induction s as [i|s IHs t IHt]; cbn [add_up]; [apply (nth_all (fun p => p = 0)); [reflexivity|exact P]|]. rewrite IHs, IHt, Rplus_0_r. apply rnd_zero.
Qed.
Definition unchanging (x : list R) : Prop := exists v, forall w, In w x -> w = v.
(** In a scan along one column the position is one rounded quotient. *)
Lemma position_one order before after c x I b p : Forall unchanging before -> Forall unchanging after -> position_fl order (before ++ c :: after) (before ++ c :: after) x I b = Ok (Some p) ->
  let w := map (fun p => rnd (fst p * snd p)) (combine x (net_fl I b)) in trapz_fl order (net_fl I b) c <> 0 /\ p = rnd (trapz_fl order w c / trapz_fl order (net_fl I b) c).
Proof.
  intros B A E w. unfold position_fl in E. destruct (integrate_fl order (before ++ c :: after) I b) as [t|] eqn:T; [|discriminate]. cbn [bind] in E. destruct (Req_EM_T t 0) as [|N]; [discriminate|]. injection E as E. fold w in E.
  assert (L : List.length I <> 1%nat). { intros L. destruct (C115_answers order (before ++ c :: after) I b) as [X _]; [destruct before; discriminate|]. rewrite (X L) in T. discriminate. }
  assert (K : forall y l r, double r -> Forall unchanging l -> fold_left (fun r c => rnd (r + trapz_fl order y c)) l r = r).
  { intros y l r D F. induction F as [|z l (v & V) F IH]; [reflexivity|]. cbn [fold_left]. rewrite (constant_pieces order y z v V), Rplus_0_r, rnd_double by exact D. exact IH. }
  assert (K2 : forall l r, double r -> Forall unchanging l -> fold_left (fun r c => rnd (r + rnd (trapz_fl order w c / t))) l r = r).
  { intros l r D F. induction F as [|z l (v & V) F IH]; [reflexivity|]. cbn [fold_left]. rewrite (constant_pieces order w z v V). unfold Rdiv. rewrite Rmult_0_l, rnd_zero, Rplus_0_r, rnd_double by exact D. exact IH. }
  apply integrate_val in T. rewrite fold_left_app in T, E. rewrite (K _ _ _ dzero B) in T. rewrite (K2 _ _ dzero B) in E. cbn [fold_left] in T, E. rewrite Rplus_0_l in T, E. rewrite K in T by (try apply drnd; exact A). rewrite K2 in E by (try apply drnd; exact A).
  rewrite rnd_double in T by (apply sum_double, pieces_double). rewrite rnd_double in E by apply drnd. subst t p. split; [exact N|reflexivity].
Qed.
Lemma pieces_grid j k : (0 <= j)%Z -> (0 <= k)%Z -> (j + k <= 1000)%Z -> forall y x, Forall (fun v => grid (- j) v /\ Rabs v <= bpow radix2 (51 - j)) y -> Forall (fun z => grid (- k) z /\ Rabs z <= bpow radix2 (51 - k)) x -> size y x < bpow radix2 (52 - k - j) ->
  pieces y x = sides exact_side y x /\ forall i, grid (- k - j - 1) (nth i (pieces y x) 0).
Proof.
  intros J K JK. induction y as [|v0 y IH]; intros x HI Hx B; [split; [reflexivity|intros []; apply grid_zero]|]. destruct y as [|v1 y]; [split; [reflexivity|intros [|[]]; apply grid_zero]|]. destruct x as [|x0 [|x1 x]]; [split; [reflexivity|intros []; apply grid_zero]|split; [reflexivity|intros []; apply grid_zero]|].
  inversion HI as [|? ? [V0 V0'] HI']; subst. inversion HI' as [|? ? [V1 V1'] _]; subst. inversion Hx as [|? ? [X0 X0'] Hx']; subst. inversion Hx' as [|? ? [X1 X1'] _]; subst.
  change (size_side v0 v1 x0 x1 + size (v1 :: y) (x1 :: x) < bpow radix2 (52 - k - j)) in B. assert (S0 := size_pos (v1 :: y) (x1 :: x)).
  assert (S1 : 0 <= size_side v0 v1 x0 x1) by (unfold size_side; assert (P := Rabs_pos v0); assert (Q := Rabs_pos v1); apply Rmult_le_pos; [apply Rabs_pos|lra]). destruct (IH (x1 :: x) HI' Hx' ltac:(lra)) as [J1 J2].
  assert (two : forall z, bpow radix2 (z + 1) = 2 * bpow radix2 z) by (intros z; rewrite bpow_plus; change (bpow radix2 1) with 2; ring).
  assert (Gd := grid_minus _ _ _ X1 X0). assert (Gs := grid_plus _ _ _ V1 V0).
  assert (Nd : rnd (x1 - x0) = x1 - x0). { apply rnd_double, (grid_double (- k)); [lia|exact Gd|]. apply Rle_lt_trans with (Rabs x1 + Rabs x0); [unfold Rminus; apply Rle_trans with (1 := Rabs_triang _ _); rewrite Rabs_Ropp; lra|]. apply Rle_lt_trans with (2 * bpow radix2 (51 - k)); [lra|]. rewrite <- two. apply bpow_lt. lia. }
  assert (Ns : rnd (v1 + v0) = v1 + v0). { apply rnd_double, (grid_double (- j)); [lia|exact Gs|]. apply Rle_lt_trans with (1 := Rabs_triang _ _). apply Rle_lt_trans with (2 * bpow radix2 (51 - j)); [lra|]. rewrite <- two. apply bpow_lt. lia. }
  assert (Gp := grid_mult _ _ _ _ Gd Gs). replace (- k + - j)%Z with (- k - j)%Z in Gp by lia. assert (Gh := grid_half _ _ Gp).
  assert (Sp : Rabs ((x1 - x0) * (v1 + v0)) <= 2 * size_side v0 v1 x0 x1). { unfold size_side. rewrite Rabs_mult. assert (T := Rabs_triang v1 v0). apply Rle_trans with (Rabs (x1 - x0) * (Rabs v0 + Rabs v1)); [apply Rmult_le_compat_l; [apply Rabs_pos|lra]|right; field]. }
  assert (Np : rnd ((x1 - x0) * (v1 + v0)) = (x1 - x0) * (v1 + v0)). { apply rnd_double, (grid_double (- k - j)); [lia|exact Gp|]. apply Rle_lt_trans with (1 := Sp). replace (53 + (- k - j))%Z with (52 - k - j + 1)%Z by lia. rewrite two. lra. }
  assert (Nh : rnd ((x1 - x0) * (v1 + v0) / 2) = (x1 - x0) * (v1 + v0) / 2). { apply rnd_double, (grid_double (- k - j - 1)); [lia|exact Gh|]. unfold Rdiv. rewrite Rabs_mult, (Rabs_right (/ 2)) by lra. replace (53 + (- k - j - 1))%Z with (52 - k - j)%Z by lia. lra. }
  rewrite pieces_unfold, Nd, Ns, Np, Nh. split; [|intros [|i]; [exact Gh|apply J2]]. cbn [sides]. rewrite J1. f_equal. unfold exact_side. field.
Qed.
Lemma trapz_grid order j k y x : adds order -> (0 <= j)%Z -> (0 <= k)%Z -> (j + k <= 1000)%Z -> List.length y = List.length x -> Forall (fun v => grid (- j) v /\ Rabs v <= bpow radix2 (51 - j)) y -> Forall (fun z => grid (- k) z /\ Rabs z <= bpow radix2 (51 - k)) x ->
  size y x < bpow radix2 (52 - k - j) -> trapz_fl order y x = area y x.
Proof.
  intros O J K JK L HI Hx S. destruct (pieces_grid j k J K JK y x HI Hx S) as [P G]. unfold trapz_fl, sum_fl. rewrite P in *. rewrite area_sides. destruct (sides exact_side y x) as [|p l] eqn:Q; [reflexivity|]. rewrite <- Q in *.
  assert (n0 : (0 < List.length (sides exact_side y x))%nat) by (rewrite Q; cbn; lia). assert (PO := O _ n0). set (s := order _) in *. assert (LS : List.length (sides size_side y x) = List.length (sides exact_side y x)) by (rewrite !sides_length; congruence).
  destruct (add_up_exact (- k - j - 1) (sides exact_side y x) (sides size_side y x) s) as (A1 & _ & _); [lia|intros i; split; [apply G|apply sides_le]|intros i; apply (nth_all (fun z => 0 <= z)); [lra|apply sides_pos]| |].
  - rewrite (rsum_perm _ _ (Permutation_map _ PO)), <- LS, at_seq, <- size_sides. replace (53 + (- k - j - 1))%Z with (52 - k - j)%Z by lia. exact S.
  - rewrite (rsum_perm _ _ (Permutation_map _ PO)), at_seq in A1. exact A1.
Qed.
(** The intensities times the column. *)
Definition weighted (x y : list R) : list R := map (fun p => fst p * snd p) (combine x y).
Lemma area_between lo hi : forall x y c, Forall (fun z => lo <= z <= hi) x -> Forall (fun v => 0 <= v) y -> rising c -> List.length x = List.length y -> lo * area y c <= area (weighted x y) c <= hi * area y c.
Proof.
  induction x as [|x0 x IH]; intros [|y0 y] c X Y C L; try discriminate; [cbn; lra|]. injection L as L. destruct x as [|x1 x], y as [|y1 y]; try discriminate; [cbn; lra|]. destruct c as [|c0 [|c1 c]]; [cbn; lra|cbn; lra|].
  inversion X as [|? ? X0 X']; subst. inversion X' as [|? ? X1 _]; subst. inversion Y as [|? ? Y0 Y']; subst. inversion Y' as [|? ? Y1 _]; subst. cbn in C. destruct C as [C0 C1]. specialize (IH (y1 :: y) (c1 :: c) X' Y' C1 L).
  change (lo * ((c1 - c0) * ((y0 + y1) / 2) + area (y1 :: y) (c1 :: c)) <= (c1 - c0) * ((x0 * y0 + x1 * y1) / 2) + area (weighted (x1 :: x) (y1 :: y)) (c1 :: c) <= hi * ((c1 - c0) * ((y0 + y1) / 2) + area (y1 :: y) (c1 :: c))).
  assert (A : lo * y0 + lo * y1 <= x0 * y0 + x1 * y1) by (apply Rplus_le_compat; apply Rmult_le_compat_r; lra). assert (B : x0 * y0 + x1 * y1 <= hi * y0 + hi * y1) by (apply Rplus_le_compat; apply Rmult_le_compat_r; lra).
  assert (A' : (c1 - c0) * ((lo * y0 + lo * y1) / 2) <= (c1 - c0) * ((x0 * y0 + x1 * y1) / 2)) by (apply Rmult_le_compat_l; lra). assert (B' : (c1 - c0) * ((x0 * y0 + x1 * y1) / 2) <= (c1 - c0) * ((hi * y0 + hi * y1) / 2)) by (apply Rmult_le_compat_l; lra).
  split; [replace (lo * ((c1 - c0) * ((y0 + y1) / 2) + area (y1 :: y) (c1 :: c))) with ((c1 - c0) * ((lo * y0 + lo * y1) / 2) + lo * area (y1 :: y) (c1 :: c)) by field; lra|replace (hi * ((c1 - c0) * ((y0 + y1) / 2) + area (y1 :: y) (c1 :: c))) with ((c1 - c0) * ((hi * y0 + hi * y1) / 2) + hi * area (y1 :: y) (c1 :: c)) by field; lra].
Qed.
Lemma area_pos : forall y c, Forall (fun v => 0 <= v) y -> rising c -> 0 <= area y c.
Proof.
  induction y as [|y0 y IH]; intros c Y C; [cbn; lra|]. destruct y as [|y1 y]; [cbn; lra|]. destruct c as [|c0 [|c1 c]]; [cbn; lra|cbn; lra|]. inversion Y as [|? ? Y0 Y']; subst. inversion Y' as [|? ? Y1 _]; subst. cbn in C. destruct C as [C0 C1].
  specialize (IH (c1 :: c) Y' C1). change (0 <= (c1 - c0) * ((y0 + y1) / 2) + area (y1 :: y) (c1 :: c)). assert (0 <= (c1 - c0) * ((y0 + y1) / 2)) by (apply Rmult_le_pos; lra). lra.
Qed.
(** C116.  In a scan along one column with whole counts and coordinates that are multiples of a power of two, the position is the exact one rounded once; so it lies
    between the smallest and the largest coordinate. *)
Theorem C116_range : forall order before after c x I b k lo hi p, adds order -> Forall unchanging before -> Forall unchanging after -> (0 <= k <= 500)%Z -> rising c ->
  List.length x = List.length I -> List.length c = List.length I -> (forall v, In v I -> grid 0 (v - b) /\ 0 <= v - b <= 2 ^ 51) ->
  (forall z, In z c -> grid (- k) z /\ Rabs z <= bpow radix2 (51 - k)) -> (forall z, In z x -> grid (- k) z /\ lo <= z <= hi) -> double lo -> double hi ->
  let y := map (fun v => v - b) I in (forall z, In z (weighted x y) -> Rabs z <= bpow radix2 (51 - k)) -> size y c < bpow radix2 (52 - k) -> size (weighted x y) c < bpow radix2 (52 - k - k) ->
  position_fl order (before ++ c :: after) (before ++ c :: after) x I b = Ok (Some p) -> p = rnd (area (weighted x y) c / area y c) /\ lo <= p <= hi.
Proof.
  intros order before after c x I b k lo hi p O B A K C Lx Lc HI Hc Hx Dlo Dhi y Hw Sy Sw E. destruct (position_one order before after c x I b p B A E) as [N P].
  assert (P51 : bpow radix2 51 = 2 ^ 51) by (cbn; lra). assert (Y0 : Forall (fun v => 0 <= v) y) by (apply Forall_map, Forall_forall; intros v V; apply (HI v V)).
  assert (Ny : net_fl I b = y). { unfold net_fl, y. apply map_ext_in. intros v V. destruct (HI v V) as [G [S0 S]]. apply rnd_double, (grid_double 0); [lia|exact G|]. rewrite Rabs_right by lra. apply Rle_lt_trans with (1 := S). rewrite <- P51. apply bpow_lt. lia. }
  assert (Ly : List.length y = List.length I) by apply map_length.
  assert (Gw : forall z, In z (weighted x y) -> grid (- k) z). { intros z Z. unfold weighted in Z. apply in_map_iff in Z. destruct Z as ([a v] & <- & Z). cbn [fst snd]. assert (Za := in_combine_l _ _ _ _ Z). assert (Zv := in_combine_r _ _ _ _ Z). unfold y in Zv. apply in_map_iff in Zv. destruct Zv as (q & <- & Q).
    replace (- k)%Z with (- k + 0)%Z by lia. apply grid_mult; [apply Hx, Za|apply HI, Q]. }
  assert (Nw : map (fun p => rnd (fst p * snd p)) (combine x (net_fl I b)) = weighted x y). { rewrite Ny. unfold weighted. apply map_ext_in. intros q Q. assert (W : In (fst q * snd q) (weighted x y)) by (apply (in_map (fun p => fst p * snd p)), Q). apply rnd_double, (grid_double (- k)); [lia|apply Gw, W|]. apply Rle_lt_trans with (1 := Hw _ W). apply bpow_lt. lia. }
  assert (Lw : List.length (weighted x y) = List.length c) by (unfold weighted; rewrite map_length, combine_length, Lx, Ly, Lc; apply Nat.min_id). rewrite Nw, Ny in *.
  assert (Ty : trapz_fl order y c = area y c). { apply (trapz_grid order 0 k); try assumption; try lia; [apply Forall_map, Forall_forall; intros v V; destruct (HI v V) as [G S]; split; [exact G|change (51 - 0)%Z with 51%Z; rewrite P51, Rabs_right; lra]|apply Forall_forall; exact Hc|replace (52 - k - 0)%Z with (52 - k)%Z by lia; exact Sy]. }
  assert (Tw : trapz_fl order (weighted x y) c = area (weighted x y) c). { apply (trapz_grid order k k); try assumption; try lia; [apply Forall_forall; intros z Z; split; [apply Gw, Z|apply Hw, Z]|apply Forall_forall; exact Hc]. }
  rewrite Tw, Ty in P. rewrite Ty in N. split; [exact P|]. subst p. assert (S0 := area_pos y c Y0 C). assert (X : Forall (fun z => lo <= z <= hi) x) by (apply Forall_forall; intros z Z; apply (Hx z Z)).
  destruct (area_between lo hi x y c X Y0 C ltac:(congruence)) as [L1 L2]. set (S := area y c) in *. set (T := area (weighted x y) c) in *.
  rewrite <- (rnd_double lo Dlo), <- (rnd_double hi Dhi). split; apply rnd_mono; apply (Rmult_le_reg_r S); try lra; unfold Rdiv; rewrite Rmult_assoc, Rinv_l by exact N; lra.
Qed.
Print Assumptions C116_range.
Definition ex_order (n : nat) : shape := chain (n - 1).
Lemma whole z : (Z.abs z < 2 ^ 53)%Z -> rnd (IZR z) = IZR z.
Proof. intros H; apply rnd_double; rewrite <- (Rmult_1_r (IZR z)); change 1 with (bpow radix2 0); apply dyadic_double; [exact H|lia]. Qed.
Lemma trapz_two a : double a -> double (a + a) -> trapz_fl ex_order [a; a] [0; 1] = a.
Proof. intros D D2. unfold trapz_fl, sum_fl, ex_order. cbn [pieces List.length Nat.sub chain add_up nth]. rewrite Rminus_0_r, (whole 1%Z) by reflexivity. rewrite (rnd_double _ D2), Rmult_1_l, (rnd_double _ D2). replace ((a + a) / 2) with a by field. apply rnd_double, D. Qed.
Lemma double3 : double 3.
Proof. rewrite <- (whole 3%Z) by reflexivity; apply drnd. Qed.
Lemma double6 : double (3 + 3).
Proof. replace (3 + 3) with 6 by ring; rewrite <- (whole 6%Z) by reflexivity; apply drnd. Qed.
Lemma net3 : net_fl [3; 3] 0 = [3; 3].
Proof. unfold net_fl; cbn [map]; rewrite Rminus_0_r, (rnd_double _ double3); reflexivity. Qed.
Lemma tenth_position : let h := rnd (1 / 10) in h = P60 (7205759403792794 * 2 ^ 4) /\ position_fl ex_order [[h; h]; [0; 1]] [[h; h]; [0; 1]] [h; h] [3; 3] 0 = Ok (Some (IZR 7205759403792795 * bpow radix2 (-56))).
Proof.
  cbv zeta.
  assert (X : rnd (1 / 10) = P60 (7205759403792794 * 2 ^ 4)) by (apply (literal_is 1 10); vm_compute; reflexivity || discriminate). set (h := rnd (1 / 10)) in *.
  assert (T : integrate_fl ex_order [[h; h]; [0; 1]] [3; 3] 0 = Ok 3).
  { change [[h; h]; [0; 1]] with ([] ++ [h; h] :: [[0; 1]])%list. rewrite (C115_constant ex_order [] [[0; 1]] [h; h] h [3; 3] 0) by (try discriminate; intros w [<-|[<-|[]]]; reflexivity). cbn [Datatypes.app]. rewrite integrate_ok by discriminate. cbn [fold_left]. rewrite net3, (trapz_two 3 double3 double6), Rplus_0_l, (rnd_double _ double3). reflexivity. }
  destruct (C116_answers ex_order [[h; h]; [0; 1]] [[h; h]; [0; 1]] [h; h] [3; 3] 0 ltac:(discriminate)) as [_ A]. destruct (proj2 (A 3 T) ltac:(lra)) as [p P]. split; [exact X|]. rewrite P. do 2 f_equal. revert P. intros P.
  apply (position_one ex_order [[h; h]] [] [0; 1] [h; h] [3; 3] 0 p) in P; [|constructor; [exists h; intros w [<-|[<-|[]]]; reflexivity|constructor]|constructor]. destruct P as [_ P]. rewrite net3, (trapz_two 3 double3 double6) in P. cbn [combine map fst snd] in P.
  assert (G : rnd (h * 3) = P60 (5404319552844596 * 2 ^ 6)) by (rewrite X, Rmult_comm, P60_scale; apply P60_rnd; vm_compute; reflexivity).
  rewrite G in P. rewrite trapz_two in P; [|apply P60_double; lia|rewrite P60_add; replace (5404319552844596 * 2 ^ 6 + 5404319552844596 * 2 ^ 6)%Z with (5404319552844596 * 2 ^ 7)%Z by reflexivity; apply P60_double; lia].
  rewrite P. assert (V : P60 (5404319552844596 * 2 ^ 6) / 3 = 21617278211378384 / 3 * bpow radix2 (-56)). { unfold P60. change (-56)%Z with (-60 + 4)%Z. rewrite bpow_plus. change (bpow radix2 4) with 16. change (5404319552844596 * 2 ^ 6)%Z with (21617278211378384 * 16)%Z. rewrite mult_IZR. lra. }
    rewrite V. assert (b0 := bpow_gt_0 radix2 (-56)). apply rnd_is; [lia| |].
    - rewrite Rabs_right by (apply Rle_ge, Rmult_le_pos; lra). change (-56 + 52)%Z with (52 + -56)%Z. change (-56 + 53)%Z with (53 + -56)%Z. rewrite !(bpow_plus radix2 _ (-56)). change (bpow radix2 52) with 4503599627370496. change (bpow radix2 53) with 9007199254740992. split; [apply Rmult_le_compat_r; lra|apply Rmult_lt_compat_r; lra].
    - left. rewrite Rmult_assoc, <- bpow_plus. change (bpow radix2 (-56 + - -56)) with 1. rewrite Rmult_1_r. apply Rabs_lt. lra.
Qed.
(** C116.  In general it does not: two points with three counts each at h = 0.1, energies 0 and 1, have a position above 0.1. *)
Theorem C116_range_refuted : exists order h p, adds order /\ h = rnd (1 / 10) /\ position_fl order [[h; h]; [0; 1]] [[h; h]; [0; 1]] [h; h] [3; 3] 0 = Ok (Some p) /\ h < p.
Proof.
  destruct tenth_position as [X P]. exists ex_order, (rnd (1 / 10)), (IZR 7205759403792795 * bpow radix2 (-56)). split; [exact chain_adds|]. split; [reflexivity|]. split; [exact P|].
  rewrite X. unfold P60. change (-56)%Z with (-60 + 4)%Z. rewrite bpow_plus. change (bpow radix2 4) with 16. assert (b0 := bpow_gt_0 radix2 (-60)). rewrite mult_IZR. change (IZR (2 ^ 4)) with 16. nra.
Qed.
Print Assumptions C116_range_refuted.

(** ** Example: counts 2, 6, 2 at the energies 0, 1/4, 1/2 and h = 1: the position is 1/4. *)
Example C116_case : let c := [0; 1 / 4; 1 / 2] in let I := [2; 6; 2] in exists p, position_fl ex_order [[1; 1; 1]; c] [[1; 1; 1]; c] c I 0 = Ok (Some p) /\ p = 1 / 4 /\ 0 <= p <= 1 / 2.
Proof.
  cbv zeta. assert (S : forall a, 0 <= a -> Rabs a = a) by (intros a H; apply Rabs_right; lra). assert (P51 : bpow radix2 51 = 2251799813685248) by (cbn; lra). assert (P50 : bpow radix2 50 = 1125899906842624) by (cbn; lra). assert (P49 : bpow radix2 49 = 562949953421312) by (cbn; lra). assert (P48 : bpow radix2 48 = 281474976710656) by (cbn; lra).
  assert (GI : forall v, In v [2; 6; 2] -> grid 0 (v - 0) /\ 0 <= v - 0 <= 2 ^ 51) by (intros v V; cbn in V; split; [destruct V as [<-|[<-|[<-|[]]]]; [exists 2%Z|exists 6%Z|exists 2%Z]; cbn; lra|destruct V as [<-|[<-|[<-|[]]]]; lra]).
  assert (Gc : forall z, In z [0; 1 / 4; 1 / 2] -> grid (- 2) z /\ 0 <= z <= 1 / 2) by (intros z Z; cbn in Z; split; [destruct Z as [<-|[<-|[<-|[]]]]; [exists 0%Z|exists 1%Z|exists 2%Z]; cbn; lra|destruct Z as [<-|[<-|[<-|[]]]]; lra]).
  assert (G1 : forall z, In z [1; 1; 1] -> grid (- 2) z /\ z = 1) by (intros z Z; assert (z = 1) by (cbn in Z; destruct Z as [<-|[<-|[<-|[]]]]; reflexivity); subst; split; [exists 4%Z; cbn; lra|reflexivity]).
  assert (Dq : forall m, (Z.abs m < 2 ^ 53)%Z -> double (IZR m / 4)) by (intros m M; replace (IZR m / 4) with (IZR m * bpow radix2 (-2)) by (cbn; lra); apply dyadic_double; [exact M|lia]).
  assert (T : exists t, integrate_fl ex_order [[1; 1; 1]; [0; 1 / 4; 1 / 2]] [2; 6; 2] 0 = Ok t /\ t <> 0).
  { destruct (C115_answers ex_order [[1; 1; 1]; [0; 1 / 4; 1 / 2]] [2; 6; 2] 0 ltac:(discriminate)) as [_ A]. destruct (A ltac:(discriminate)) as (t & E & _). exists t. split; [exact E|].
    apply (C115_exact ex_order _ _ _ _ 2 chain_adds) in E; [|lia|intros v V; destruct (GI v V); split; [assumption|rewrite S; lra]| |].
    - rewrite E. unfold rsum. cbn. lra.
    - intros x [<-|[<-|[]]]; (split; [reflexivity|]); intros z Z; replace (51 - 2)%Z with 49%Z by lia; rewrite P49; [destruct (G1 z Z) as [H ->]; split; [exact H|rewrite S; lra]|destruct (Gc z Z); split; [assumption|rewrite S; lra]].
    - replace (52 - 2)%Z with 50%Z by lia. rewrite P50. unfold rsum. cbn. rewrite !S by lra. lra. }
  destruct T as (t & T & N). destruct (C116_answers ex_order [[1; 1; 1]; [0; 1 / 4; 1 / 2]] [[1; 1; 1]; [0; 1 / 4; 1 / 2]] [0; 1 / 4; 1 / 2] [2; 6; 2] 0 ltac:(discriminate)) as [_ A]. destruct (proj2 (A t T) N) as [p P]. exists p. split; [exact P|].
  apply (C116_range ex_order [[1; 1; 1]] [] [0; 1 / 4; 1 / 2] [0; 1 / 4; 1 / 2] [2; 6; 2] 0 2 0 (1 / 2)) in P; try (constructor; fail); try reflexivity; try lia; try exact chain_adds; try exact GI; try exact Gc.
  - destruct P as [P R]. split; [|exact R]. rewrite P. replace (area _ _ / area _ _) with (1 / 4) by (cbn; field). apply rnd_double, (Dq 1%Z). reflexivity.
  - constructor; [exists 1; intros w W; apply (G1 w W)|constructor].
  - cbn. lra.
  - intros z Z. destruct (Gc z Z). split; [assumption|]. replace (51 - 2)%Z with 49%Z by lia. rewrite P49, S; lra.
  - replace 0 with (0 / 4) by lra. apply (Dq 0%Z). reflexivity.
  - replace (1 / 2) with (2 / 4) by lra. apply (Dq 2%Z). reflexivity.
  - intros z Z. replace (51 - 2)%Z with 49%Z by lia. rewrite P49. cbn in Z. destruct Z as [<-|[<-|[<-|[]]]]; rewrite S; lra.
  - replace (52 - 2)%Z with 50%Z by lia. rewrite P50. cbn. rewrite !S by lra. lra.
  - replace (52 - 2 - 2)%Z with 48%Z by lia. rewrite P48. unfold weighted. cbn. rewrite !S by lra. lra.
Qed.

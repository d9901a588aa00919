(** C117: peak widths in floating-point arithmetic. *)
From Coq Require Import List Arith ZArith Reals Lra Lia Psatz Permutation.
From Flocq Require Import Core.
From Verif Require Import Base EnergyFloatModel BinFloatProps PointsFloatProps BgFloatProps IntFloatModel IntFloatProps PosnFloatProps WidthFloatModel.
Import ListNotations.
Local Open Scope R_scope.

(** C117.  No width for a single point (an exception) or for an integral of zero (nan); otherwise there is one. *)
Theorem C117_answers : forall order every columns hkle x I b, hkle <> [] ->
  (List.length I = 1%nat -> width_fl order every columns hkle x I b = Err ValueError) /\
  (forall t, integrate_fl order hkle I b = Ok t -> (t = 0 -> width_fl order every columns hkle x I b = Ok None) /\ (t <> 0 -> exists w, width_fl order every columns hkle x I b = Ok (Some w))).
Proof.
  intros order every columns hkle x I b N. unfold width_fl. destruct (C116_answers order every hkle x I b N) as [A B]. split.
  - intros L. rewrite (A L). reflexivity.
  - intros t T. destruct (B t T) as [Z S]. split.
    + intros E. rewrite (Z E). reflexivity.
    + intros E. destruct (S E) as [p ->]. cbn [bind]. exact (proj2 (proj2 (C116_answers order columns hkle _ I b N) t T) E).
Qed.
Print Assumptions C117_answers.

Lemma position_pos order columns hkle x I b p : Forall rising columns -> Forall rising hkle -> Forall (fun v => b <= v) I -> Forall (fun z => 0 <= z) x -> position_fl order columns hkle x I b = Ok (Some p) -> 0 <= p.
Proof.
  intros R H F X P. assert (O := C116_opposite _ _ _ _ _ _ _ P). assert (M : - p <= p); [|lra]. apply (C116_monotone order columns hkle (map Ropp x) x I b); try assumption.
  clear - X. induction X; cbn [map]; constructor; [lra|assumption].
Qed.
(** C117.  Over ascending coordinates and intensities not below the background the squared width is not negative, so its full width at half maximum is a number that is not negative. *)
Theorem C117_sign : forall order every columns hkle x I b w, Forall rising columns -> Forall rising hkle -> Forall (fun v => b <= v) I ->
  width_fl order every columns hkle x I b = Ok (Some w) -> 0 <= w /\ forall k, 0 <= k -> exists f, fwhm_fl k w = Some f /\ 0 <= f.
Proof.
  intros order every columns hkle x I b w R H F E. unfold width_fl in E. destruct (position_fl order every hkle x I b) as [[p|]|]; cbn [bind] in E; try discriminate.
  assert (W : 0 <= w). { apply (position_pos order columns hkle (map (deviation p) x) I b); try assumption. apply Forall_map, Forall_forall. intros z _. unfold deviation. apply rnd_nonneg. nra. }
  split; [exact W|]. intros k K. unfold fwhm_fl. destruct (Rlt_dec w 0); [lra|]. eexists. split; [reflexivity|]. apply rnd_nonneg, Rmult_le_pos; [|exact K]. apply rnd_nonneg, Rmult_le_pos; [|lra]. apply rnd_nonneg, sqrt_pos.
Qed.
Print Assumptions C117_sign.

Lemma halves z : (Z.abs z < 2 ^ 53)%Z -> rnd (IZR z / 2) = IZR z / 2.
Proof. intros H. apply rnd_double. replace (IZR z / 2) with (IZR z * bpow radix2 (-1)) by (cbn; lra). apply dyadic_double; [exact H|lia]. Qed.
Lemma trapz_three a b c : (Z.abs a < 2 ^ 20)%Z -> (Z.abs b < 2 ^ 20)%Z -> (Z.abs c < 2 ^ 20)%Z -> trapz_fl ex_order [IZR a; IZR b; IZR c] [0; 1; 2] = IZR (a + 2 * b + c) / 2.
Proof.
  intros A B C. unfold trapz_fl, sum_fl, ex_order. cbn [pieces List.length Nat.sub chain add_up nth]. rewrite Rminus_0_r. replace (2 - 1) with 1 by ring. rewrite (whole 1%Z), !Rmult_1_l by reflexivity. rewrite <- !plus_IZR.
  rewrite !(whole (b + a)), !(whole (c + b)) by lia. rewrite !halves by lia. replace (IZR (b + a) / 2 + IZR (c + b) / 2) with (IZR (a + 2 * b + c) / 2) by (rewrite !plus_IZR, mult_IZR; field). apply halves. lia.
Qed.
(** C117.  With intensities below the background it need not be: counts 0, 5, 0 at the energies 0, 1, 2 above a background of 1 have a negative squared width, and its full
    width at half maximum is nan. *)
Theorem C117_number_refuted : exists order e I b w, adds order /\ rising e /\ width_fl order [e] [e] [e] e I b = Ok (Some w) /\ w < 0 /\ forall k, fwhm_fl k w = None.
Proof.
  assert (N : net_fl [0; 5; 0] 1 = [IZR (-1); IZR 4; IZR (-1)]) by (unfold net_fl; cbn [map]; replace (0 - 1) with (IZR (-1)) by ring; replace (5 - 1) with (IZR 4) by ring; rewrite !whole by reflexivity; reflexivity).
  assert (T : trapz_fl ex_order (net_fl [0; 5; 0] 1) [0; 1; 2] = 3) by (rewrite N, trapz_three by reflexivity; cbn; lra).
  assert (I : integrate_fl ex_order [[0; 1; 2]] [0; 5; 0] 1 = Ok 3) by (rewrite integrate_ok by discriminate; cbn [fold_left]; rewrite T, Rplus_0_l, (rnd_double _ double3); reflexivity).
  assert (M : forall a b c, (Z.abs a < 2 ^ 10)%Z -> (Z.abs b < 2 ^ 10)%Z -> (Z.abs c < 2 ^ 10)%Z -> position_fl ex_order [[0; 1; 2]] [[0; 1; 2]] [IZR a; IZR b; IZR c] [0; 5; 0] 1 = Ok (Some (rnd (IZR (- a + 8 * b - c) / 2 / 3)))).
  { intros a b c A B C. unfold position_fl. rewrite I. cbn [bind]. destruct (Req_EM_T 3 0); [lra|]. do 2 f_equal. cbn [fold_left]. rewrite N. cbn [combine map fst snd]. rewrite <- !mult_IZR, !whole, trapz_three by lia. rewrite Rplus_0_l, (rnd_double _ (drnd _)). do 3 f_equal. f_equal. ring. }
  exists ex_order, [0; 1; 2], [0; 5; 0], 1, (rnd (IZR (-2) / 2 / 3)). split; [exact chain_adds|]. split; [cbn; lra|].
  assert (L : rnd (IZR (-2) / 2 / 3) < 0). { apply Rle_lt_trans with (rnd (IZR (-1) / 4)); [apply rnd_mono; lra|]. rewrite rnd_double; [lra|]. replace (IZR (-1) / 4) with (IZR (-1) * bpow radix2 (-2)) by (cbn; lra). apply dyadic_double; [reflexivity|lia]. }
  split; [|split; [exact L|intros k; unfold fwhm_fl; destruct (Rlt_dec _ 0); [reflexivity|contradiction]]].
  unfold width_fl. rewrite (M 0%Z 1%Z 2%Z) by reflexivity. cbn [bind]. replace (IZR (- 0 + 8 * 1 - 2) / 2 / 3) with (IZR 1) by (cbn; lra). rewrite (whole 1%Z) by reflexivity.
  assert (D : map (deviation 1) [0; 1; 2] = [IZR 1; IZR 0; IZR 1]). { cbn [map]. unfold deviation. replace (0 - 1) with (IZR (-1)) by ring. replace (1 - 1) with (IZR 0) by ring. replace (2 - 1) with (IZR 1) by ring. rewrite !whole by reflexivity. rewrite <- !mult_IZR, !whole by reflexivity. reflexivity. }
  rewrite D, (M 1%Z 0%Z 1%Z) by reflexivity. do 4 f_equal.
Qed.
Print Assumptions C117_number_refuted.

(** C117.  Reversing the sign of a column leaves its width unchanged, exactly. *)
Theorem C117_opposite : forall order every columns hkle x I b w, width_fl order every columns hkle x I b = Ok (Some w) -> width_fl order every columns hkle (map Ropp x) I b = Ok (Some w).
Proof.
  intros order every columns hkle x I b w E. unfold width_fl in *. destruct (position_fl order every hkle x I b) as [[p|]|] eqn:P; cbn [bind] in E; try discriminate.
  rewrite (C116_opposite _ _ _ _ _ _ _ P). cbn [bind]. rewrite map_map. rewrite <- E. f_equal. apply map_ext. intros z. unfold deviation. replace (- z - - p) with (- (z - p)) by ring. rewrite rnd_opp. f_equal. ring.
Qed.
Print Assumptions C117_opposite.

(** C117.  A larger squared width never gives a smaller full width at half maximum; a width of zero gives zero. *)
Theorem C117_fwhm : forall k v w f g, 0 <= k -> v <= w -> fwhm_fl k v = Some f -> fwhm_fl k w = Some g -> 0 <= f <= g /\ (v = 0 -> f = 0).
Proof.
  intros k v w f g K L. unfold fwhm_fl. destruct (Rlt_dec v 0); [discriminate|]. destruct (Rlt_dec w 0); [discriminate|]. intros [=<-] [=<-]. split; [split|].
  - apply rnd_nonneg, Rmult_le_pos; [|exact K]. apply rnd_nonneg, Rmult_le_pos; [|lra]. apply rnd_nonneg, sqrt_pos.
  - apply rnd_mono, Rmult_le_compat_r; [exact K|]. apply rnd_mono, Rmult_le_compat_r; [lra|]. apply rnd_mono, sqrt_le_1_alt, L.
  - intros ->. rewrite sqrt_0, rnd_zero, Rmult_0_l, rnd_zero, Rmult_0_l. apply rnd_zero.
Qed.
Print Assumptions C117_fwhm.

(** C117.  In a scan along one column [c] with whole counts and coordinates that are multiples of a power of two, a column that keeps its value has a width of exactly zero. *)
Theorem C117_still : forall order before after c x v I b k w, adds order -> Forall unchanging before -> Forall unchanging after -> (0 <= k <= 500)%Z -> rising c ->
  List.length x = List.length I -> List.length c = List.length I -> (forall n, In n I -> grid 0 (n - b) /\ 0 <= n - b <= 2 ^ 51) ->
  (forall z, In z c -> grid (- k) z /\ Rabs z <= bpow radix2 (51 - k)) -> (forall z, In z x -> grid (- k) z /\ z = v) -> double v ->
  let y := map (fun n => n - b) I in (forall z, In z (weighted x y) -> Rabs z <= bpow radix2 (51 - k)) -> size y c < bpow radix2 (52 - k) -> size (weighted x y) c < bpow radix2 (52 - k - k) ->
  let columns := (before ++ c :: after)%list in width_fl order columns columns columns x I b = Ok (Some w) -> w = 0.
Proof.
  intros order before after c x v I b k w O B A K C Lx Lc HI Hc Hx D y Hw Sy Sw columns E. unfold width_fl in E. destruct (position_fl order columns columns x I b) as [[p|]|] eqn:P; cbn [bind] in E; try discriminate.
  apply (C116_range order before after c x I b k v v p) in P; try assumption; [|intros z Z; destruct (Hx z Z) as [G ->]; split; [exact G|lra]]. destruct P as [_ P]. assert (p = v) by lra. subst p.
  assert (Z : map (deviation v) x = map (fun _ => 0) x). { apply map_ext_in. intros z Z. destruct (Hx z Z) as [_ ->]. unfold deviation. replace (v - v) with 0 by ring. rewrite rnd_zero, Rmult_0_l. apply rnd_zero. }
  rewrite Z in E. assert (N := C116_opposite _ _ _ _ _ _ _ E). rewrite map_map, Ropp_0, E in N. injection N as N. lra.
Qed.
Print Assumptions C117_still.
(** C117.  In general it has not: two points with three counts each at h = 0.1, energies 0 and 1, have a width in h, though h does not change. *)
Theorem C117_still_refuted : exists order h w, adds order /\ h = rnd (1 / 10) /\ (let columns := [[h; h]; [0; 1]] in width_fl order columns columns columns [h; h] [3; 3] 0 = Ok (Some w)) /\ 0 < w.
Proof.
  destruct tenth_position as [X P]. set (h := rnd (1 / 10)) in *. set (p := IZR 7205759403792795 * bpow radix2 (-56)) in *. exists ex_order, h, (bpow radix2 (-112)). split; [exact chain_adds|]. split; [reflexivity|]. split; [|apply bpow_gt_0].
  cbv zeta. unfold width_fl. rewrite P. cbn [bind map].
  assert (B : forall m, (Z.abs m < 2 ^ 53)%Z -> double (IZR m * bpow radix2 (-112))) by (intros m M; apply dyadic_double; [exact M|lia]).
  assert (V : deviation p h = bpow radix2 (-112)).
  { unfold deviation. assert (E : h - p = IZR (-1) * bpow radix2 (-56)). { rewrite X. unfold p, P60. change (-56)%Z with (-60 + 4)%Z. rewrite bpow_plus. change (bpow radix2 4) with 16. rewrite mult_IZR. change (IZR (2 ^ 4)) with 16. ring. }
    rewrite E, (rnd_double (IZR (-1) * bpow radix2 (-56))) by (apply dyadic_double; [reflexivity|lia]). replace (IZR (-1) * bpow radix2 (-56) * (IZR (-1) * bpow radix2 (-56))) with (IZR 1 * bpow radix2 (-112)) by (change (-112)%Z with (-56 + -56)%Z; rewrite bpow_plus; ring).
    rewrite (rnd_double _ (B 1%Z ltac:(reflexivity))). ring. }
  rewrite V. set (s := bpow radix2 (-112)) in *.
  assert (L : position_fl ex_order [[h; h]; [0; 1]] [[h; h]; [0; 1]] [h; h] [3; 3] 0 <> Ok None) by (rewrite P; discriminate).
  assert (Q : exists w, position_fl ex_order [[h; h]; [0; 1]] [[h; h]; [0; 1]] [s; s] [3; 3] 0 = Ok (Some w)).
  { unfold position_fl in P |- *. destruct (integrate_fl ex_order [[h; h]; [0; 1]] [3; 3] 0) as [t|]; [|discriminate]. cbn [bind] in *. destruct (Req_EM_T t 0); [discriminate|]. eexists. reflexivity. }
  destruct Q as [w Q]. rewrite Q. do 2 f_equal.
  apply (position_one ex_order [[h; h]] [] [0; 1] [s; s] [3; 3] 0 w) in Q; [|constructor; [exists h; intros z [<-|[<-|[]]]; reflexivity|constructor]|constructor]. destruct Q as [_ ->]. rewrite net3, (trapz_two 3 double3 double6). cbn [combine map fst snd].
  rewrite (Rmult_comm s 3), (rnd_double _ (B 3%Z ltac:(reflexivity))). rewrite trapz_two; [|apply (B 3%Z); reflexivity|replace (3 * s + 3 * s) with (IZR 6 * s) by ring; apply (B 6%Z); reflexivity].
  replace (3 * s / 3) with (IZR 1 * s) by field. rewrite (rnd_double _ (B 1%Z ltac:(reflexivity))). ring.
Qed.
Print Assumptions C117_still_refuted.

(** ** Example: counts 2, 6, 2 at the energies 0, 1/4, 1/2 and h = 1: the squared width is 1/64 in energy and 0 in h. *)
Example C117_case : let e := [0; 1 / 4; 1 / 2] in let h := [1; 1; 1] in let columns := [h; e] in
  width_fl ex_order columns columns columns e [2; 6; 2] 0 = Ok (Some (1 / 64)) /\ width_fl ex_order columns columns columns h [2; 6; 2] 0 = Ok (Some 0).
Proof.
  cbv zeta. assert (S : forall a, 0 <= a -> Rabs a = a) by (intros a H; apply Rabs_right; lra). assert (P47 : bpow radix2 (51 - 4) = 140737488355328) by (cbn; lra). assert (P48 : bpow radix2 (52 - 4) = 281474976710656) by (cbn; lra). assert (P44 : bpow radix2 (52 - 4 - 4) = 17592186044416) by (cbn; lra).
  assert (GI : forall v, In v [2; 6; 2] -> grid 0 (v - 0) /\ 0 <= v - 0 <= 2 ^ 51) by (intros v V; cbn in V; split; [destruct V as [<-|[<-|[<-|[]]]]; [exists 2%Z|exists 6%Z|exists 2%Z]; cbn; lra|destruct V as [<-|[<-|[<-|[]]]]; lra]).
  assert (Gc : forall z, In z [0; 1 / 4; 1 / 2] -> grid (- 4) z /\ 0 <= z <= 1 / 2) by (intros z Z; cbn in Z; split; [destruct Z as [<-|[<-|[<-|[]]]]; [exists 0%Z|exists 4%Z|exists 8%Z]; cbn; lra|destruct Z as [<-|[<-|[<-|[]]]]; lra]).
  assert (Gc' : forall z, In z [0; 1 / 4; 1 / 2] -> grid (- 4) z /\ Rabs z <= bpow radix2 (51 - 4)) by (intros z Z; destruct (Gc z Z); split; [assumption|rewrite P47, S; lra]).
  assert (Gq : forall z, In z [1 / 16; 0; 1 / 16] -> grid (- 4) z /\ 0 <= z <= 1 / 16) by (intros z Z; cbn in Z; split; [destruct Z as [<-|[<-|[<-|[]]]]; [exists 1%Z|exists 0%Z|exists 1%Z]; cbn; lra|destruct Z as [<-|[<-|[<-|[]]]]; lra]).
  assert (G1 : forall z, In z [1; 1; 1] -> grid (- 4) z /\ z = 1) by (intros z Z; assert (z = 1) by (cbn in Z; destruct Z as [<-|[<-|[<-|[]]]]; reflexivity); subst; split; [exists 16%Z; cbn; lra|reflexivity]).
  assert (Dq : forall m, (Z.abs m < 2 ^ 53)%Z -> double (IZR m / 256)) by (intros m M; replace (IZR m / 256) with (IZR m * bpow radix2 (-8)) by (cbn; lra); apply dyadic_double; [exact M|lia]).
  assert (U : Forall unchanging [[1; 1; 1]]) by (constructor; [exists 1; intros w W; apply (G1 w W)|constructor]). assert (Rc : rising [0; 1 / 4; 1 / 2]) by (cbn; lra).
  assert (Sy : size (map (fun v => v - 0) [2; 6; 2]) [0; 1 / 4; 1 / 2] < bpow radix2 (52 - 4)) by (rewrite P48; cbn; rewrite !S by lra; lra).
  assert (T : exists t, integrate_fl ex_order [[1; 1; 1]; [0; 1 / 4; 1 / 2]] [2; 6; 2] 0 = Ok t /\ t <> 0).
  { destruct (C115_answers ex_order [[1; 1; 1]; [0; 1 / 4; 1 / 2]] [2; 6; 2] 0 ltac:(discriminate)) as [_ A]. destruct (A ltac:(discriminate)) as (t & E & _). exists t. split; [exact E|].
    apply (C115_exact ex_order _ _ _ _ 4 chain_adds) in E; [|lia|intros v V; destruct (GI v V); split; [assumption|rewrite S; lra]| |].
    - rewrite E. unfold rsum. cbn. lra.
    - intros x [<-|[<-|[]]]; (split; [reflexivity|]); intros z Z; [destruct (G1 z Z) as [H ->]; split; [exact H|rewrite P47, S; lra]|apply Gc', Z].
    - rewrite P48. unfold rsum. cbn. rewrite !S by lra. lra. }
  destruct T as (t & T & N). assert (W : forall x, exists w, width_fl ex_order [[1; 1; 1]; [0; 1 / 4; 1 / 2]] [[1; 1; 1]; [0; 1 / 4; 1 / 2]] [[1; 1; 1]; [0; 1 / 4; 1 / 2]] x [2; 6; 2] 0 = Ok (Some w)) by (intros x; destruct (C117_answers ex_order [[1; 1; 1]; [0; 1 / 4; 1 / 2]] [[1; 1; 1]; [0; 1 / 4; 1 / 2]] [[1; 1; 1]; [0; 1 / 4; 1 / 2]] x [2; 6; 2] 0) as [_ A]; [discriminate|exact (proj2 (A t T) N)]).
  assert (M : forall x lo hi p, List.length x = 3%nat -> (forall z, In z x -> grid (- 4) z /\ lo <= z <= hi) -> 0 <= lo -> hi <= 1 -> double lo -> double hi -> position_fl ex_order [[1; 1; 1]; [0; 1 / 4; 1 / 2]] [[1; 1; 1]; [0; 1 / 4; 1 / 2]] x [2; 6; 2] 0 = Ok (Some p) ->
    p = rnd (area (weighted x [2 - 0; 6 - 0; 2 - 0]) [0; 1 / 4; 1 / 2] / area [2 - 0; 6 - 0; 2 - 0] [0; 1 / 4; 1 / 2])).
  { intros x lo hi p L Gx H0 H1 D0 D1 P. destruct x as [|a [|b [|c [|]]]]; try discriminate. assert (Ra : 0 <= a <= 1) by (destruct (Gx a ltac:(cbn; auto)); lra). assert (Rb : 0 <= b <= 1) by (destruct (Gx b ltac:(cbn; auto)); lra). assert (Rd : 0 <= c <= 1) by (destruct (Gx c ltac:(cbn; auto)); lra).
    apply (C116_range ex_order [[1; 1; 1]] [] [0; 1 / 4; 1 / 2] [a; b; c] [2; 6; 2] 0 4 lo hi) in P; try assumption; try reflexivity; try lia; try exact chain_adds; try (constructor; fail); [apply P| |].
    - rewrite P47. intros z Z. cbn in Z. destruct Z as [<-|[<-|[<-|[]]]]; rewrite S; nra.
    - rewrite P44. unfold weighted. cbn. rewrite !S by nra. nra. }
  split.
  - destruct (W [0; 1 / 4; 1 / 2]) as [w E]. rewrite E. do 2 f_equal. unfold width_fl in E. destruct (position_fl _ _ _ [0; 1 / 4; 1 / 2] _ _) as [[p|]|] eqn:P; cbn [bind] in E; try discriminate.
    apply (M _ 0 (1 / 2)) in P; try assumption; try reflexivity; try lra; [|replace 0 with (0 / 256) by lra; apply (Dq 0%Z); reflexivity|replace (1 / 2) with (128 / 256) by lra; apply (Dq 128%Z); reflexivity].
    assert (p = 1 / 4). { rewrite P. replace (area _ _ / area _ _) with (64 / 256) by (cbn; field). rewrite (rnd_double _ (Dq 64%Z ltac:(reflexivity))). lra. } clear P. subst p.
    assert (V : map (deviation (1 / 4)) [0; 1 / 4; 1 / 2] = [1 / 16; 0; 1 / 16]).
    { assert (V : forall m n, (Z.abs m < 2 ^ 53)%Z -> n = (IZR m / 256) -> rnd n = n) by (intros m n H ->; apply rnd_double, Dq, H). cbn [map]. unfold deviation. rewrite (V (-64)%Z (0 - 1 / 4)), (V 0%Z (1 / 4 - 1 / 4)), (V 64%Z (1 / 2 - 1 / 4)) by (reflexivity || lra).
      rewrite (V 16%Z), (V 0%Z), (V 16%Z) by (reflexivity || lra). f_equal; [lra|f_equal; [lra|f_equal; lra]]. }
    rewrite V in E. apply (M _ 0 (1 / 16)) in E; try assumption; try reflexivity; try lra; [|replace 0 with (0 / 256) by lra; apply (Dq 0%Z); reflexivity|replace (1 / 16) with (16 / 256) by lra; apply (Dq 16%Z); reflexivity].
    rewrite E. replace (area _ _ / area _ _) with (4 / 256) by (cbn; field). rewrite (rnd_double _ (Dq 4%Z ltac:(reflexivity))). lra.
  - destruct (W [1; 1; 1]) as [w E]. rewrite E. do 2 f_equal. apply (C117_still ex_order [[1; 1; 1]] [] [0; 1 / 4; 1 / 2] [1; 1; 1] 1 [2; 6; 2] 0 4 w) in E; try assumption; try reflexivity; try lia; try exact chain_adds; try (constructor; fail).
    + replace 1 with (256 / 256) by lra. apply (Dq 256%Z). reflexivity.
    + rewrite P47. intros z Z. cbn in Z. destruct Z as [<-|[<-|[<-|[]]]]; rewrite S; lra.
    + rewrite P44. unfold weighted. cbn. rewrite !S by lra. lra.
Qed.

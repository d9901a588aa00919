(** C106: the operations of space groups in floating-point arithmetic. *)
From Coq Require Import String List Bool Arith ZArith QArith Qreals Reals Lra Lia.
From Flocq Require Import Core.
From Verif Require Import Base SymData SymModel EnergyFloatModel BinFloatProps SymFloatModel.
Import ListNotations.
Local Open Scope R_scope.

(** ** Intervals with ends in units of 2^-60, and their arithmetic *)
Definition rz (z : Z) : Z :=
  let a := Z.abs z in
  if (a <? 2 ^ 53)%Z then z else
  let k := (Z.log2 a - 52)%Z in let p := (2 ^ k)%Z in let q := (a / p)%Z in let r := (a mod p)%Z in
  let m := if (2 * r <? p)%Z then q else if (p <? 2 * r)%Z then (q + 1)%Z else if Z.even q then q else (q + 1)%Z in
  (Z.sgn z * m * p)%Z.
Lemma P60_le y z : (y <= z)%Z -> P60 y <= P60 z.
Proof. intros H. apply Rmult_le_compat_r; [apply bpow_ge_0|apply IZR_le, H]. Qed.
Lemma P60_le_inv y z : P60 y <= P60 z -> (y <= z)%Z.
Proof. intros H. apply le_IZR. apply Rmult_le_reg_r in H; [exact H|apply bpow_gt_0]. Qed.
Lemma rz_ok z : rnd (P60 z) = P60 (rz z).
Proof.
  unfold rz. set (a := Z.abs z). destruct (Z.ltb_spec a (2 ^ 53)) as [S|S]; [apply rnd_double, dyadic_double; [exact S|lia]|].
  set (k := (Z.log2 a - 52)%Z). set (p := (2 ^ k)%Z). set (q := (a / p)%Z). set (r := (a mod p)%Z). set (m := if (2 * r <? p)%Z then q else _).
  assert (a0 : (0 < a)%Z) by (assert (0 < 2 ^ 53)%Z by reflexivity; lia). assert (L := Z.log2_spec a a0). assert (k0 : (0 <= k)%Z). { unfold k. assert (53 <= Z.log2 a)%Z; [|lia]. apply Z.log2_le_pow2; [exact a0|exact S]. }
  assert (p0 : (0 < p)%Z) by (apply Z.pow_pos_nonneg; lia). assert (Ea : a = (p * q + r)%Z) by apply (Z.div_mod a p ltac:(lia)). assert (Br : (0 <= r < p)%Z) by (apply Z.mod_pos_bound; exact p0).
  assert (D : (2 * Z.abs (a - m * p) < p)%Z \/ ((2 * Z.abs (a - m * p) = p)%Z /\ Z.even m = true)).
  { unfold m. destruct (Z.ltb_spec (2 * r) p); [left; lia|]. destruct (Z.ltb_spec p (2 * r)); [left; lia|]. destruct (Z.even q) eqn:Ev; [right; split; [lia|exact Ev]|right; split; [lia|]]. rewrite Z.even_add, Ev. reflexivity. }
  assert (z0 : z = (Z.sgn z * a)%Z) by (unfold a; lia). assert (sg : (Z.sgn z = 1 \/ Z.sgn z = -1)%Z) by (unfold a in a0; lia).
  change (Z.sgn z * m * p)%Z with ((Z.sgn z * m) * 2 ^ k)%Z. apply P60_rnd. unfold rounds. fold p. repeat (apply andb_true_intro; split).
  - apply Z.leb_le, k0.
  - apply Z.leb_le. fold a. replace (52 + k)%Z with (Z.log2 a) by (unfold k; lia). lia.
  - apply Z.ltb_lt. fold a. replace (53 + k)%Z with (Z.succ (Z.log2 a)) by (unfold k; lia). lia.
  - assert (A : Z.abs (z - Z.sgn z * m * p) = Z.abs (a - m * p)) by (rewrite z0 at 1; destruct sg as [-> | ->]; lia). rewrite A. apply orb_true_intro. destruct D as [D|[D Ev]]; [left; apply Z.ltb_lt, D|right; apply andb_true_intro; split; [apply Z.eqb_eq, D|]]. destruct sg as [-> | ->]; [rewrite Z.mul_1_l; exact Ev|]. rewrite Z.even_mul, Ev. apply orb_true_r.
Qed.

Definition iv := option (Z * Z).
Definition inI (x : R) (I : iv) : Prop := match I with Some (a, b) => P60 a <= x <= P60 b | None => True end.
Definition iadd (I J : iv) : iv := match I, J with Some (a, b), Some (c, d) => Some (rz (a + c), rz (b + d)) | _, _ => None end.
Lemma iadd_ok x y I J : inI x I -> inI y J -> inI (rnd (x + y)) (iadd I J).
Proof. destruct I as [[a b]|], J as [[c d]|]; cbn; try tauto. intros H K. rewrite <- !rz_ok. split; apply rnd_mono; rewrite <- P60_add; lra. Qed.
Definition iscale (r : Z) (I : iv) : iv :=
  match I with
  | None => None
  | Some (a, b) => if (r =? 0)%Z then Some (0%Z, 0%Z) else if (r =? 1)%Z then Some (rz a, rz b) else if (r =? -1)%Z then Some (rz (- b), rz (- a)) else None
  end.
Lemma iscale_ok r x I : inI x I -> inI (rnd (IZR r * x)) (iscale r I).
Proof.
  destruct I as [[a b]|]; [|easy]. intros H. cbn in H. unfold iscale. destruct (Z.eqb_spec r 0) as [->|_]; [cbn; rewrite Rmult_0_l, rnd_zero; unfold P60; lra|].
  destruct (Z.eqb_spec r 1) as [->|_]; [cbn; rewrite Rmult_1_l, <- !rz_ok; split; apply rnd_mono; lra|]. destruct (Z.eqb_spec r (-1)) as [->|_]; [|exact I]. cbn. rewrite <- !rz_ok, <- !P60_opp. split; apply rnd_mono; lra.
Qed.
Definition ijoin (I J : iv) : iv := match I, J with Some (a, b), Some (c, d) => Some (Z.min a c, Z.max b d) | _, _ => None end.
Fixpoint hull (l : list iv) : iv := match l with [] => None | [J] => J | J :: l => ijoin J (hull l) end.
Lemma ijoin_l x I J : inI x I -> inI x (ijoin I J).
Proof. destruct I as [[a b]|], J as [[c d]|]; cbn; try tauto. intros H. assert (A := P60_le (Z.min a c) a (Z.le_min_l _ _)). assert (B := P60_le b (Z.max b d) (Z.le_max_l _ _)). lra. Qed.
Lemma ijoin_r x I J : inI x J -> inI x (ijoin I J).
Proof. destruct I as [[a b]|], J as [[c d]|]; cbn; try tauto. intros H. assert (A := P60_le (Z.min a c) c (Z.le_min_r _ _)). assert (B := P60_le d (Z.max b d) (Z.le_max_r _ _)). lra. Qed.
Lemma hull_ok x I l : In I l -> inI x I -> inI x (hull l).
Proof.
  induction l as [|J l IH]; [easy|]. intros H K. destruct l as [|J' l]; [destruct H as [->|[]]; exact K|]. change (inI x (ijoin J (hull (J' :: l)))). destruct H as [->|H]; [apply ijoin_l, K|apply ijoin_r, IH; assumption].
Qed.
(** Fewer sums when some numbers are exactly 0. *)
Definition izero (J : iv) : bool := match J with Some (a, b) => ((a =? 0) && (b =? 0))%Z | None => false end.
Definition ifixed (J : iv) : bool := match J with Some (a, b) => ((rz a =? a) && (rz b =? b))%Z | None => true end.
Lemma rz_idem z : rz (rz z) = rz z.
Proof. assert (E := rz_ok (rz z)). rewrite <- rz_ok, rnd_double in E by (unfold double, rnd; apply generic_format_round; [apply FLT_exp_valid; reflexivity|apply valid_rnd_N]). rewrite rz_ok in E. apply Z.le_antisymm; apply P60_le_inv; lra. Qed.
Lemma iadd_fixed J K : ifixed (iadd J K) = true.
Proof. destruct J as [[a b]|], K as [[c d]|]; cbn; try reflexivity. rewrite !rz_idem, !Z.eqb_refl. reflexivity. Qed.
Lemma iadd_comm J K : iadd J K = iadd K J.
Proof. destruct J as [[a b]|], K as [[c d]|]; cbn; try reflexivity. rewrite (Z.add_comm a), (Z.add_comm b). reflexivity. Qed.
Lemma iadd_zero J K : izero J = true -> ifixed K = true -> iadd J K = K.
Proof. destruct J as [[a b]|], K as [[c d]|]; try easy. cbn. intros H F. apply andb_prop in H, F. rewrite !Z.eqb_eq in *. destruct H as [-> ->], F as [F G]. rewrite !Z.add_0_l, F, G. reflexivity. Qed.
Lemma izero_eq J K : izero J = true -> izero K = true -> J = K.
Proof. destruct J as [[a b]|], K as [[c d]|]; try easy. cbn. intros H F. apply andb_prop in H, F. rewrite !Z.eqb_eq in *. destruct H as [-> ->], F as [-> ->]. reflexivity. Qed.
Definition iorders (a b c d : iv) : list iv :=
  if ifixed a && ifixed b && ifixed c && ifixed d then
    let three x y z := [iadd (iadd x y) z; iadd (iadd x z) y; iadd (iadd y z) x] in
    match izero a, izero b, izero c, izero d with
    | true, true, true, _ => [d]
    | true, true, false, true => [c]
    | true, false, true, true => [b]
    | false, true, true, true => [a]
    | true, true, false, false => [iadd c d]
    | true, false, true, false => [iadd b d]
    | true, false, false, true => [iadd b c]
    | false, true, true, false => [iadd a d]
    | false, true, false, true => [iadd a c]
    | false, false, true, true => [iadd a b]
    | true, false, false, false => three b c d
    | false, true, false, false => three a c d
    | false, false, true, false => three a b d
    | false, false, false, true => three a b c
    | false, false, false, false => orders iadd a b c d
    end
  else orders iadd a b c d.
Lemma iorders_incl a b c d J : In J (orders iadd a b c d) -> In J (iorders a b c d).
Proof.
  unfold iorders. destruct (ifixed a) eqn:Fa, (ifixed b) eqn:Fb, (ifixed c) eqn:Fc, (ifixed d) eqn:Fd; cbn [andb]; try exact (fun H => H).
  assert (L := iadd_zero). assert (R : forall J K, izero J = true -> ifixed K = true -> iadd K J = K) by (intros; rewrite iadd_comm; apply L; assumption).
  destruct (izero a) eqn:Za, (izero b) eqn:Zb, (izero c) eqn:Zc, (izero d) eqn:Zd; try exact (fun H => H); unfold orders; intros H.
  all: repeat match goal with
    | Z : izero ?x = true, H : context [iadd ?x ?y] |- _ => rewrite (L x y Z) in H by (assumption || apply iadd_fixed)
    | Z : izero ?x = true, H : context [iadd ?y ?x] |- _ => rewrite (R x y Z) in H by (assumption || apply iadd_fixed)
    end.
  all: repeat (destruct H as [H|H]; [rewrite <- H; cbn [In]; auto;
    rewrite ?(iadd_comm b a), ?(iadd_comm c a), ?(iadd_comm d a), ?(iadd_comm c b), ?(iadd_comm d b), ?(iadd_comm d c);
    rewrite ?(iadd_comm a (iadd _ _)), ?(iadd_comm b (iadd _ _)), ?(iadd_comm c (iadd _ _)), ?(iadd_comm d (iadd _ _)); auto|]); try (destruct H; fail).
  all: left; apply izero_eq; assumption.
Qed.
Definition isum (a b c d : iv) : iv := hull (iorders a b c d).
Lemma isum_ok sum : summation sum -> forall a b c d A B C D, inI a A -> inI b B -> inI c C -> inI d D -> inI (sum a b c d) (isum A B C D).
Proof.
  intros S a b c d A B C D Ha Hb Hc Hd. specialize (S a b c d). assert (F : Forall2 inI (orders (fun x y => rnd (x + y)) a b c d) (orders iadd A B C D)) by (unfold orders; repeat constructor; repeat apply iadd_ok; assumption).
  unfold isum. assert (W := iorders_incl A B C D). revert S F W. generalize (orders (fun x y => rnd (x + y)) a b c d) (orders iadd A B C D) (sum a b c d). intros l L x S F W.
  assert (E : exists I, In I L /\ inI x I). { clear W. induction F as [|y I l L H _ IH]; [destruct S|]. destruct S as [->|S]; [exists I; cbn; auto|]. destruct (IH S) as (J & ? & ?). exists J. cbn. auto. }
  destruct E as (I & H & K). eapply hull_ok; [apply W, H|exact K].
Qed.

(** ** Remainders and comparisons *)
Lemma tol_between : P60 1024 < tol < P60 2048.
Proof.
  assert (B : bpow radix2 (-60) = / 1152921504606846976) by reflexivity. assert (R : forall z, (Z.abs z < 2 ^ 53)%Z -> rnd (P60 z) = P60 z) by (intros z H; apply rnd_double, dyadic_double; [exact H|lia]).
  split.
  - apply Rlt_le_trans with (P60 1152); [apply P60_lt; reflexivity|]. rewrite <- (R 1152%Z eq_refl). apply rnd_mono. unfold P60. rewrite B. lra.
  - apply Rle_lt_trans with (P60 1153); [|apply P60_lt; reflexivity]. rewrite <- (R 1153%Z eq_refl). apply rnd_mono. unfold P60. rewrite B. lra.
Qed.
Definition ONE : Z := (2 ^ 60)%Z.
Lemma P60_one : P60 ONE = 1.
Proof. unfold P60, ONE. change (bpow radix2 (-60)) with (/ IZR (2 ^ 60)). apply Rinv_r. apply IZR_neq. discriminate. Qed.
Lemma P60_int n : P60 (n * ONE) = IZR n.
Proof. rewrite <- P60_scale, P60_one. ring. Qed.
Lemma small_diff d z : (0 <= z < 2 ^ 53)%Z -> Rabs d <= P60 z -> Rabs (rnd d) <= P60 z.
Proof.
  intros Z H. assert (R : rnd (P60 z) = P60 z) by (apply rnd_double, dyadic_double; lia). apply Rabs_le_inv in H. apply Rabs_le. split; [|rewrite <- R; apply rnd_mono; lra]. rewrite <- R, <- rnd_opp. apply rnd_mono. lra.
Qed.
Lemma large_diff d z : (0 <= z < 2 ^ 53)%Z -> P60 z <= Rabs d -> P60 z <= Rabs (rnd d).
Proof.
  intros Z H. assert (R : rnd (P60 z) = P60 z) by (apply rnd_double, dyadic_double; lia). unfold Rabs in H. destruct (Rcase_abs d) as [N|N].
  - assert (rnd d <= - P60 z) by (rewrite <- R, <- rnd_opp; apply rnd_mono; lra). assert (P60 z <= - rnd d) by lra. apply Rle_trans with (1 := H1). rewrite <- Rabs_Ropp. apply Rle_abs.
  - assert (P60 z <= rnd d) by (rewrite <- R; apply rnd_mono; lra). apply Rle_trans with (1 := H0). apply Rle_abs.
Qed.
Definition ireduce (I : iv) : iv :=
  match I with
  | None => None
  | Some (a, b) =>
      let n := (b / ONE)%Z in let a' := (a - n * ONE)%Z in let b' := (b - n * ONE)%Z in let hi := rz b' in
      if (b' <=? ONE - 2048)%Z then
        if (0 <=? a')%Z then if (0 <=? n)%Z then Some (a', b') else Some (rz a', hi)
        else if (-1024 <=? a')%Z then Some (0%Z, Z.max b' hi) else None
      else if (ONE - 1024 <=? a')%Z then Some (0%Z, 0%Z) else None
  end.
Lemma fmod_floor x : fmod1 x = (if Rlt_dec x 0 then rnd (x - IZR (Zfloor x)) else x - IZR (Zfloor x)).
Proof.
  unfold fmod1, Ztrunc. destruct (Rlt_bool_spec x 0) as [N|N]; destruct (Rlt_dec x 0) as [N'|N']; try lra.
  - destruct (Rlt_dec (x - IZR (Zceil x)) 0) as [M|M].
    + f_equal. rewrite Zceil_floor_neq; [rewrite plus_IZR; ring|]. intros E. assert (U := Zfloor_lb x). rewrite <- E in M. rewrite Zceil_IZR in M. lra.
    + assert (U := Zceil_ub x). assert (E : x = IZR (Zceil x)) by lra. rewrite E, Zceil_IZR, Zfloor_IZR. rewrite Rminus_diag_eq by reflexivity. symmetry. apply rnd_zero.
  - destruct (Rlt_dec (x - IZR (Zfloor x)) 0) as [M|M]; [|reflexivity]. assert (U := Zfloor_lb x). lra.
Qed.
Lemma keep t : 0 <= t -> t <= P60 (ONE - 2048) -> (if Rlt_dec (Rabs (rnd (1 - t))) tol then 0 else t) = t.
Proof.
  intros t0 H. destruct (Rlt_dec _ _) as [L|]; [exfalso|reflexivity]. rewrite <- P60_sub, P60_one in H. assert (K := large_diff (1 - t) 2048 ltac:(split; [lia|reflexivity])). rewrite (Rabs_right (1 - t)) in K by (assert (0 < P60 2048) by (replace 0 with (P60 0) by (unfold P60; ring); apply P60_lt; reflexivity); lra). specialize (K ltac:(lra)). destruct tol_between. lra.
Qed.
Lemma ireduce_ok x I : inI x I -> inI (reduce1 x) (ireduce I).
Proof.
  destruct I as [[a b]|]; [|easy]. intros H. cbn in H. unfold ireduce. set (n := (b / ONE)%Z). set (a' := (a - n * ONE)%Z). set (b' := (b - n * ONE)%Z).
  assert (O0 : (0 < ONE)%Z) by reflexivity. assert (Bb : (0 <= b' < ONE)%Z). { unfold b', n. assert (D := Z.div_mod b ONE ltac:(lia)). assert (M := Z.mod_pos_bound b ONE O0). lia. }
  assert (Pb : P60 b = P60 b' + IZR n) by (unfold b'; rewrite <- P60_sub, P60_int; ring). assert (Pa : P60 a = P60 a' + IZR n) by (unfold a'; rewrite <- P60_sub, P60_int; ring).
  assert (P0 : P60 0 = 0) by (unfold P60; ring). assert (Bb1 : P60 b' < 1) by (rewrite <- P60_one; apply P60_lt; lia).
  destruct (Z.leb_spec b' (ONE - 2048)) as [Hh|_]; [|].
  2: { destruct (Z.leb_spec (ONE - 1024) a') as [A|]; [|exact I]. assert (A' := P60_le _ _ A). rewrite <- P60_sub, P60_one in A'. assert (T := tol_between). assert (p0 : 0 < P60 1024) by (rewrite <- P0; apply P60_lt; reflexivity). assert (p1 : P60 1024 < 1) by (rewrite <- P60_one; apply P60_lt; reflexivity).
    assert (F : Zfloor x = n) by (apply Zfloor_imp; rewrite plus_IZR; lra). unfold reduce1. rewrite fmod_floor, F. set (t := if Rlt_dec x 0 then _ else _). assert (tb : 1 - P60 1024 <= t <= 1).
    { assert (Z1 : rnd 1 = 1) by (rewrite <- P60_one, rz_ok; reflexivity). assert (Z2 : rnd (1 - P60 1024) = 1 - P60 1024) by (rewrite <- P60_one, P60_sub, rz_ok; reflexivity). unfold t. destruct (Rlt_dec x 0); [split; [rewrite <- Z2|rewrite <- Z1]; apply rnd_mono; lra|lra]. }
    clearbody t. assert (K : Rabs (rnd (1 - t)) <= P60 1024) by (apply small_diff; [split; [lia|reflexivity]|apply Rabs_le; lra]). cbn. destruct (Rlt_dec (Rabs (rnd (1 - t))) tol) as [_|W]; [rewrite P0; lra|exfalso; apply W; lra]. }
  assert (Hh' := P60_le _ _ Hh). assert (Q : rnd (P60 (ONE - 2048)) = P60 (ONE - 2048)) by (rewrite rz_ok; reflexivity).
  assert (Hr : rnd (P60 b') <= P60 (ONE - 2048)) by (rewrite <- Q; apply rnd_mono, Hh'). assert (n0 : (0 <= n)%Z -> x >= IZR n -> ~ x < 0) by (intros A B; apply IZR_le in A; lra).
  unfold reduce1. rewrite fmod_floor. destruct (Z.leb_spec 0 a') as [A|A].
  - assert (A' := P60_le _ _ A). rewrite P0 in A'. assert (F : Zfloor x = n) by (apply Zfloor_imp; rewrite plus_IZR; lra). rewrite F. destruct (Z.leb_spec 0 n) as [N|N].
    + destruct (Rlt_dec x 0) as [X|X]; [exfalso; apply n0 in N; lra|]. cbn. rewrite keep by lra. lra.
    + assert (N1 : IZR n <= -1) by (apply IZR_le; lia). destruct (Rlt_dec x 0) as [X|X]; [|exfalso; lra]. cbn [inI]. rewrite <- !rz_ok. assert (R : rnd (P60 a') <= rnd (x - IZR n) <= rnd (P60 b')) by (split; apply rnd_mono; lra). assert (R0 : 0 <= rnd (P60 a')) by (rewrite <- rnd_zero; apply rnd_mono; lra). rewrite keep by lra. exact R.
  - destruct (Z.leb_spec (-1024) a') as [A2|]; [|exact I]. assert (A' := P60_lt _ _ A). assert (A2' := P60_le _ _ A2). rewrite P0 in A'. assert (T := tol_between). assert (E1023 : P60 (-1024) = - P60 1024) by (rewrite P60_opp; reflexivity).
    assert (S1 : P60 1024 < 1) by (rewrite <- P60_one; apply P60_lt; reflexivity). cbn [inI]. rewrite P0. assert (M1 := P60_le _ _ (Z.le_max_l b' (rz b'))). assert (M2 := P60_le _ _ (Z.le_max_r b' (rz b'))). rewrite <- rz_ok in M2. assert (b0 : 0 <= P60 b') by (rewrite <- P0; apply P60_le; lia).
    destruct (Rlt_le_dec x (IZR n)) as [X|X].
    + assert (F : Zfloor x = (n - 1)%Z) by (apply Zfloor_imp; rewrite plus_IZR, minus_IZR; lra). rewrite F, minus_IZR. set (t := if Rlt_dec x 0 then _ else _). assert (tb : 1 - P60 1024 <= t <= 1).
      { assert (Z1 : rnd 1 = 1) by (rewrite <- P60_one, rz_ok; reflexivity). assert (Z2 : rnd (1 - P60 1024) = 1 - P60 1024) by (rewrite <- P60_one, P60_sub, rz_ok; reflexivity). unfold t. destruct (Rlt_dec x 0); [split; [rewrite <- Z2|rewrite <- Z1]; apply rnd_mono; lra|lra]. }
      assert (p0 : 0 < P60 1024) by (rewrite <- P0; apply P60_lt; reflexivity). assert (K : Rabs (rnd (1 - t)) <= P60 1024) by (apply small_diff; [split; [lia|reflexivity]|apply Rabs_le; lra]). clearbody t. destruct (Rlt_dec (Rabs (rnd (1 - t))) tol) as [_|W]; [|exfalso; apply W; lra]. lra.
    + assert (F : Zfloor x = n) by (apply Zfloor_imp; rewrite plus_IZR; lra). rewrite F. destruct (Rlt_dec x 0) as [Y|Y].
      * assert (R : 0 <= rnd (x - IZR n) <= rnd (P60 b')) by (split; [rewrite <- rnd_zero|]; apply rnd_mono; lra). rewrite keep by lra. lra.
      * rewrite keep by lra. lra.
Qed.
Definition iclose (I J : iv) : bool := match I, J with Some (a, b), Some (c, d) => (Z.max (b - c) (d - a) <=? 1024)%Z | _, _ => false end.
Definition ifar (I J : iv) : bool := match I, J with Some (a, b), Some (c, d) => ((2048 <=? a - d) || (2048 <=? c - b))%Z | _, _ => false end.
Lemma iclose_ok x y I J : inI x I -> inI y J -> iclose I J = true -> close1 x y = true.
Proof.
  destruct I as [[a b]|], J as [[c d]|]; try easy. cbn. intros H K C. apply Z.leb_le in C. assert (A := P60_le (b - c) 1024 ltac:(lia)). assert (B := P60_le (d - a) 1024 ltac:(lia)). rewrite <- P60_sub in A, B. assert (T := tol_between).
  assert (D : Rabs (rnd (x - y)) <= P60 1024) by (apply small_diff; [split; [lia|reflexivity]|apply Rabs_le; lra]). unfold close1. destruct (Rlt_dec _ _) as [|N]; [reflexivity|exfalso; apply N; lra].
Qed.
Lemma ifar_ok x y I J : inI x I -> inI y J -> ifar I J = true -> close1 x y = false.
Proof.
  destruct I as [[a b]|], J as [[c d]|]; try easy. cbn. intros H K C. assert (T := tol_between). assert (p0 : 0 < P60 2048) by (replace 0 with (P60 0) by (unfold P60; ring); apply P60_lt; reflexivity).
  assert (D : P60 2048 <= Rabs (rnd (x - y))). { apply large_diff; [split; [lia|reflexivity]|]. apply orb_prop in C. destruct C as [C|C]; apply Z.leb_le, P60_le in C; rewrite <- P60_sub in C; unfold Rabs; destruct (Rcase_abs _); lra. }
  unfold close1. destruct (Rlt_dec _ _) as [N|]; [exfalso; lra|reflexivity].
Qed.

(** ** Runs of the procedure on intervals *)
Record aop := mkA { a_rot : Z * Z * Z * (Z * Z * Z) * (Z * Z * Z); a1 : iv; a2 : iv; a3 : iv }.
Definition rel (f : fop) (a : aop) : Prop := f_rot f = a_rot a /\ inI (f1 f) (a1 a) /\ inI (f2 f) (a2 a) /\ inI (f3 f) (a3 a).
Definition aproduct (s g : aop) : aop :=
  let '(a, b, c, (d, e, f), (h, i, j)) := a_rot s in
  let col x y z t := isum (iscale x (a1 g)) (iscale y (a2 g)) (iscale z (a3 g)) t in
  mkA (row_times a b c (a_rot g), row_times d e f (a_rot g), row_times h i j (a_rot g)) (col a b c (a1 s)) (col d e f (a2 s)) (col h i j (a3 s)).
Definition areduce (o : aop) : aop := mkA (a_rot o) (ireduce (a1 o)) (ireduce (a2 o)) (ireduce (a3 o)).
Definition aalike (s o : aop) : option bool :=
  if rot_eq (a_rot s) (a_rot o) then
    if iclose (a1 s) (a1 o) && iclose (a2 s) (a2 o) && iclose (a3 s) (a3 o) then Some true
    else if ifar (a1 s) (a1 o) || ifar (a2 s) (a2 o) || ifar (a3 s) (a3 o) then Some false else None
  else Some false.
Fixpoint amem (l : list aop) (o : aop) : option bool :=
  match l with
  | [] => Some false
  | s :: l => match aalike s o with Some true => Some true | Some false => amem l o | None => None end
  end.
Definition aadd (st : option (list aop * list aop)) (o : aop) : option (list aop * list aop) :=
  match st with
  | None => None
  | Some st => let o := areduce o in match amem (fst st) o with Some true => Some st | Some false => Some ((fst st ++ [o])%list, (snd st ++ [o])%list) | None => None end
  end.
Definition atimes (st : option (list aop * list aop)) (g : aop) : option (list aop * list aop) :=
  match st with None => None | Some s => fold_left aadd (map (fun s => aproduct s g) (fst s)) st end.
Fixpoint aclosure (fuel total : nat) (symm new : list aop) : option (list aop) :=
  match new with
  | [] => Some symm
  | _ => if Nat.ltb (List.length symm) total then
           match fuel with
           | O => None
           | S f => match fold_left atimes new (Some (symm, [])) with Some (symm', new') => aclosure f total symm' new' | None => None end
           end
         else Some symm
  end.
Lemma rel_length l m : Forall2 rel l m -> List.length l = List.length m.
Proof. induction 1; cbn; lia. Qed.
Section Sound.
Context (sum : R -> R -> R -> R -> R) (HS : summation sum).
Lemma product_ok s g a b : rel s a -> rel g b -> rel (product sum s g) (aproduct a b).
Proof.
  intros (Rs & S1 & S2 & S3) (Rg & G1 & G2 & G3). unfold product, aproduct. rewrite <- Rs, <- Rg. destruct (f_rot s) as [[[[x y] z] [[d e] f]] [[h i] j]]. cbn. repeat split; cbn; apply isum_ok; try assumption; apply iscale_ok; assumption.
Qed.
Lemma reduce_ok s a : rel s a -> rel (freduce s) (areduce a).
Proof. intros (Rs & S1 & S2 & S3). repeat split; cbn; [exact Rs| | |]; apply ireduce_ok; assumption. Qed.
Lemma alike_ok s o a b r : rel s a -> rel o b -> aalike a b = Some r -> alike s o = r.
Proof.
  intros (Rs & S1 & S2 & S3) (Ro & O1 & O2 & O3). unfold aalike, alike. rewrite Rs, Ro. destruct (rot_eq _ _); [|intros H; injection H as <-; reflexivity].
  destruct (iclose (a1 a) (a1 b)) eqn:C1; [destruct (iclose (a2 a) (a2 b)) eqn:C2; [destruct (iclose (a3 a) (a3 b)) eqn:C3|]|]; cbn [andb].
  1: { intros H. injection H as <-. rewrite (iclose_ok _ _ _ _ S1 O1 C1), (iclose_ok _ _ _ _ S2 O2 C2), (iclose_ok _ _ _ _ S3 O3 C3). reflexivity. }
  all: destruct (ifar (a1 a) (a1 b)) eqn:F1; [intros H; injection H as <-; rewrite (ifar_ok _ _ _ _ S1 O1 F1); reflexivity|]; destruct (ifar (a2 a) (a2 b)) eqn:F2; [intros H; injection H as <-; rewrite (ifar_ok _ _ _ _ S2 O2 F2), andb_false_r; reflexivity|]; destruct (ifar (a3 a) (a3 b)) eqn:F3; [intros H; injection H as <-; rewrite (ifar_ok _ _ _ _ S3 O3 F3), andb_false_r; reflexivity|discriminate].
Qed.
Lemma mem_ok l m o b r : Forall2 rel l m -> rel o b -> amem m b = Some r -> existsb (fun s => alike s o) l = r.
Proof.
  intros F O. induction F as [|s a l m H _ IH]; cbn; [congruence|]. destruct (aalike a b) as [[|]|] eqn:E; [| |discriminate]; rewrite (alike_ok _ _ _ _ _ H O E); [intros Q; injection Q as <-; reflexivity|exact IH].
Qed.
Definition rels (st : list fop * list fop) (sa : list aop * list aop) : Prop := Forall2 rel (fst st) (fst sa) /\ Forall2 rel (snd st) (snd sa).
Lemma fadd_ok st sa o b sa' : rels st sa -> rel o b -> aadd (Some sa) b = Some sa' -> rels (fadd st o) sa'.
Proof.
  intros [F G] O. cbn [aadd]. unfold fadd. assert (O' := reduce_ok _ _ O). destruct (amem (fst sa) (areduce b)) as [[|]|] eqn:E; [| |discriminate]; intros H; injection H as <-; rewrite (mem_ok _ _ _ _ _ F O' E); [split; assumption|]. split; cbn; apply Forall2_app; auto.
Qed.
Lemma aadd_none l : fold_left aadd l None = None.
Proof. induction l; auto. Qed.
Lemma atimes_none l : fold_left atimes l None = None.
Proof. induction l; auto. Qed.
Lemma fold_add_ok : forall os bs st sa sa', Forall2 rel os bs -> rels st sa -> fold_left aadd bs (Some sa) = Some sa' -> rels (fold_left fadd os st) sa'.
Proof.
  intros os bs st sa sa' F. revert st sa. induction F as [|o b os bs O _ IH]; intros st sa Rl E; [cbn in *; injection E as <-; exact Rl|]. cbn [fold_left] in *. destruct (aadd (Some sa) b) as [sb|] eqn:A; [|rewrite aadd_none in E; discriminate]. eapply IH; [eapply fadd_ok; eauto|exact E].
Qed.
Lemma times_ok st sa g b sa' : rels st sa -> rel g b -> atimes (Some sa) b = Some sa' -> rels (ftimes sum st g) sa'.
Proof.
  intros Rl G E. unfold ftimes. cbn [atimes] in E. eapply fold_add_ok; [|exact Rl|exact E]. destruct Rl as [F _]. clear E. induction F; cbn; [constructor|]. constructor; [apply product_ok; assumption|assumption].
Qed.
Lemma fold_times_ok : forall gs bs st sa sa', Forall2 rel gs bs -> rels st sa -> fold_left atimes bs (Some sa) = Some sa' -> rels (fold_left (ftimes sum) gs st) sa'.
Proof.
  intros gs bs st sa sa' F. revert st sa. induction F as [|g b gs bs G _ IH]; intros st sa Rl E; [cbn in *; injection E as <-; exact Rl|]. cbn [fold_left] in *. destruct (atimes (Some sa) b) as [sb|] eqn:A; [|rewrite atimes_none in E; discriminate]. eapply IH; [eapply times_ok; eauto|exact E].
Qed.
Lemma closure_ok total : forall fuel symm new sa na r, Forall2 rel symm sa -> Forall2 rel new na -> aclosure fuel total sa na = Some r -> exists l, fclosure sum fuel total symm new = Some l /\ Forall2 rel l r.
Proof.
  induction fuel as [|fuel IH]; intros symm new sa na r S N E.
  - destruct N as [|g b new na G N]; cbn [aclosure fclosure] in *; [injection E as <-; eauto|]. rewrite (rel_length _ _ S). destruct (Nat.ltb _ _); [discriminate|]. injection E as <-. eauto.
  - destruct N as [|g b new na G N]; [cbn in *; injection E as <-; eauto|]. cbn [aclosure fclosure] in *. rewrite (rel_length _ _ S). destruct (Nat.ltb _ _); [|injection E as <-; eauto].
    destruct (fold_left atimes (b :: na) (Some (sa, []))) as [[sa' na']|] eqn:T; [|discriminate]. assert (Rl : rels (symm, []) (sa, [])) by (split; cbn; auto). destruct (fold_times_ok (g :: new) (b :: na) _ _ _ (Forall2_cons _ _ G N) Rl T) as [F1 F2].
    destruct (fold_left (ftimes sum) (g :: new) (symm, [])) as [symm' new']. eapply IH; eauto.
Qed.
End Sound.

(** ** The generators *)
Definition ilit (q : Q) : iv :=
  let n := Qnum q in let d := Z.pos (Qden q) in
  if (n =? 0)%Z then Some (0%Z, 0%Z) else
  let k := (Z.log2 (n * ONE / d) - 52)%Z in let m := ((2 * n * ONE + d * 2 ^ k) / (2 * d * 2 ^ k))%Z in let z := (m * 2 ^ k)%Z in
  if ((0 <? n) && (0 <=? k) && (n * 2 ^ 60 <? 2 ^ (53 + k) * d) && (2 ^ (52 + k) * d <=? n * 2 ^ 60) && (2 * Z.abs (n * 2 ^ 60 - z * d) <? 2 ^ k * d))%Z then Some (z, z) else None.
Lemma ilit_ok q : inI (rnd (Q2R q)) (ilit q).
Proof.
  unfold ilit, Q2R. change (IZR (Qnum q) * / IZR (Z.pos (Qden q))) with (IZR (Qnum q) / IZR (Z.pos (Qden q))). set (n := Qnum q). set (d := Z.pos (Qden q)). destruct (Z.eqb_spec n 0) as [->|_]; [cbn; unfold Rdiv; rewrite Rmult_0_l, rnd_zero; unfold P60; lra|].
  set (k := (_ - 52)%Z). set (m := (_ / _)%Z). destruct (_ && _) eqn:E; [|exact I]. repeat (apply andb_prop in E; destruct E as [E ?]). apply Z.leb_le in H0, H2. apply Z.ltb_lt in H, H1. cbn. rewrite (literal_is n d m k) by (assumption || reflexivity). lra.
Qed.
Definition agen (o : op) : aop := mkA (rot_of o) (ilit (t1 o)) (ilit (t2 o)) (ilit (t3 o)).
Lemma agen_ok o : rel (generator o) (agen o).
Proof. repeat split; apply ilit_ok. Qed.

(** ** All tabulated groups *)
(** An interval within 3 * 10^-16 of a rational. *)
Definition inear (q : Q) (J : iv) : bool :=
  let n := Qnum q in let d := Z.pos (Qden q) in
  match J with Some (a, b) => ((n * ONE - a * d) * 10 ^ 16 <=? 3 * ONE * d)%Z && ((b * d - n * ONE) * 10 ^ 16 <=? 3 * ONE * d)%Z | None => false end.
Lemma inear_ok q J x : inI x J -> inear q J = true -> Rabs (x - Q2R q) <= 3 / 10 ^ 16.
Proof.
  destruct J as [[a b]|]; [|easy]. cbn [inI inear]. intros H E. apply andb_prop in E. destruct E as [E F]. apply Z.leb_le, IZR_le in E, F. rewrite !mult_IZR, minus_IZR, !mult_IZR in E, F.
  unfold Q2R. set (n := IZR (Qnum q)) in *. set (d := IZR (Z.pos (Qden q))) in *. assert (d0 : 0 < d) by (apply IZR_lt; reflexivity). assert (N : n = n / d * d) by (field; lra). set (t := n / d) in *. change (n * / d) with t.
  assert (O := P60_one). unfold P60 in *. set (e := bpow radix2 (-60)) in *. assert (e0 : 0 < e) by apply bpow_gt_0. set (o := IZR ONE) in *. assert (o0 : 0 < o) by (apply IZR_lt; reflexivity). assert (T : IZR (10 ^ 16) = 10 ^ 16) by (rewrite (pow_IZR 10 16); reflexivity). rewrite T in *. clear T.
  assert (E' : (t - IZR a * e) * 10 ^ 16 <= 3). { apply Rmult_le_reg_r with (o * d); [apply Rmult_lt_0_compat; assumption|]. replace ((t - IZR a * e) * 10 ^ 16 * (o * d)) with ((t * d * o - IZR a * d * (o * e)) * 10 ^ 16) by ring. rewrite O, <- N. lra. }
  assert (F' : (IZR b * e - t) * 10 ^ 16 <= 3). { apply Rmult_le_reg_r with (o * d); [apply Rmult_lt_0_compat; assumption|]. replace ((IZR b * e - t) * 10 ^ 16 * (o * d)) with ((IZR b * d * (o * e) - t * d * o) * 10 ^ 16) by ring. rewrite O, <- N. lra. }
  apply Rabs_le. assert (P : 0 < 10 ^ 16) by lra. split; apply Rmult_le_reg_r with (10 ^ 16); try exact P.
  - replace (- (3 / 10 ^ 16) * 10 ^ 16) with (-3) by (field; lra). apply Rle_trans with ((IZR a * e - t) * 10 ^ 16); [lra|apply Rmult_le_compat_r; lra].
  - replace (3 / 10 ^ 16 * 10 ^ 16) with 3 by (field; lra). apply Rle_trans with ((IZR b * e - t) * 10 ^ 16); [apply Rmult_le_compat_r; lra|lra].
Qed.
(** A double near a rational: within 3 * 10^-16, and equal to it if this is a whole number of eighths. *)
Definition near_to (x : R) (q : Q) : Prop := Rabs (x - Q2R q) <= 3 / 10 ^ 16 /\ ((exists n, q * 8 == inject_Z n)%Q -> x = Q2R q).
Definition matches (f : fop) (o : op) : Prop := f_rot f = rot_of o /\ near_to (f1 f) (t1 o) /\ near_to (f2 f) (t2 o) /\ near_to (f3 f) (t3 o).
Definition iexact (q : Q) (J : iv) : bool :=
  let n := Qnum q in let d := Z.pos (Qden q) in
  match J with Some (a, b) => (a =? b)%Z && (negb (n * 8 mod d =? 0)%Z || (a * d =? n * ONE)%Z) | None => false end.
Lemma iexact_ok q J x : inI x J -> iexact q J = true -> (exists n, q * 8 == inject_Z n)%Q -> x = Q2R q.
Proof.
  destruct J as [[a b]|]; [|easy]. cbn [inI iexact]. intros H E [m M]. apply andb_prop in E. destruct E as [E F]. apply Z.eqb_eq in E. subst b. assert (X : x = P60 a) by lra. rewrite X. unfold Qeq in M. cbn in M. rewrite Z.mul_1_r, Pos.mul_1_r in M.
  rewrite M, Z.mod_mul in F by discriminate. cbn in F. apply Z.eqb_eq in F. unfold Q2R. set (d := Z.pos (Qden q)) in *. assert (d0 : IZR d <> 0) by (apply IZR_neq; discriminate). apply Rmult_eq_reg_r with (IZR d); [|exact d0]. rewrite Rmult_assoc, Rinv_l by exact d0. rewrite Rmult_1_r.
  rewrite Rmult_comm, P60_scale, Z.mul_comm, F, P60_int. reflexivity.
Qed.
Definition ipoint (J : iv) : bool := match J with Some (a, b) => (a =? b)%Z | None => false end.
Lemma iexact_point q J : iexact q J = true -> ipoint J = true.
Proof. destruct J as [[a b]|]; [|easy]. cbn. intros E. apply andb_prop in E. tauto. Qed.
Lemma ipoint_eq x y J : inI x J -> inI y J -> ipoint J = true -> x = y.
Proof. destruct J as [[a b]|]; [|easy]. cbn. intros H K E. apply Z.eqb_eq in E. subst b. lra. Qed.
Definition common : list Q := [0; 1 # 2; 1 # 3; 2 # 3; 1 # 4; 3 # 4; 1 # 6; 5 # 6]%Q.
Definition atrans (q : Q) (J : iv) : bool := inear q J && iexact q J && existsb (fun c => Qeq_bool q c && String.eqb (translation_str q) (translation_str c)) common.
Definition anear (a : aop) (o : op) : bool := rot_eq (a_rot a) (rot_of o) && atrans (t1 o) (a1 a) && atrans (t2 o) (a2 a) && atrans (t3 o) (a3 a).
Lemma atrans_ok q J x : inI x J -> atrans q J = true -> near_to x q.
Proof. intros H E. unfold atrans in E. apply andb_prop in E. destruct E as [E _]. apply andb_prop in E. destruct E as [E F]. split; [eapply inear_ok; eassumption|intros N; eapply iexact_ok; eassumption]. Qed.
Lemma rot_eq_ok m n : rot_eq m n = true -> m = n.
Proof.
  destruct m as [[[[a b] c] [[d e] f]] [[g h] i]], n as [[[[a' b'] c'] [[d' e'] f']] [[g' h'] i']]. cbn. intros H. repeat (apply andb_prop in H; destruct H as [H ?]). repeat match goal with E : (_ =? _)%Z = true |- _ => apply Z.eqb_eq in E end. congruence.
Qed.
Fixpoint anears (l : list aop) (m : list op) : bool := match l, m with [], [] => true | a :: l, o :: m => anear a o && anears l m | _, _ => false end.
Lemma anears_ok l m k : anears l m = true -> Forall2 rel k l -> Forall2 matches k m.
Proof.
  revert m k. induction l as [|a l IH]; intros [|o m] k E F; try discriminate; inversion F as [|f ? k' ? (Rf & F1 & F2 & F3) F']; subst; constructor.
  - cbn in E. apply andb_prop in E. destruct E as [E _]. unfold anear in E. repeat (apply andb_prop in E; destruct E as [E ?]). apply rot_eq_ok in E. split; [congruence|]. split; [|split]; eapply atrans_ok; eassumption.
  - apply IH; [|assumption]. cbn in E. apply andb_prop in E. tauto.
Qed.
Definition check (e : entry) : bool :=
  match get_generator_from_str (e_gens e) with
  | Ok gens => match operations gens (e_total e), aclosure (S (e_total e)) (e_total e) (map agen gens) (map agen gens) with
               | Ok ops, Some l => Nat.eqb (List.length l) (e_total e) && anears l ops
               | _, _ => false
               end
  | Err _ => false
  end.
Lemma check_all : forallb check table = true.
Proof. vm_compute. reflexivity. Qed.
Lemma run_ok e : In e table -> exists gens ops l, get_generator_from_str (e_gens e) = Ok gens /\ operations gens (e_total e) = Ok ops /\ anears l ops = true /\
  forall sum, summation sum -> exists k, foperations sum (map generator gens) (e_total e) = Ok k /\ Forall2 rel k l.
Proof.
  intros I. assert (C := check_all). rewrite forallb_forall in C. specialize (C e I). unfold check in C. destruct (get_generator_from_str (e_gens e)) as [gens|]; [|discriminate]. destruct (operations gens (e_total e)) as [ops|] eqn:O; [|discriminate].
  destruct (aclosure _ _ _ _) as [l|] eqn:A; [|discriminate]. apply andb_prop in C. destruct C as [C D]. assert (G : Forall2 rel (map generator gens) (map agen gens)) by (clear; induction gens; cbn; [constructor|]; constructor; [apply agen_ok|assumption]).
  exists gens, ops, l. split; [reflexivity|]. split; [exact O|]. split; [exact D|]. intros sum HS. destruct (closure_ok sum HS _ _ _ _ _ _ _ G G A) as (k & K & F). exists k. split; [|exact F]. unfold foperations. rewrite K, (rel_length _ _ F), C. reflexivity.
Qed.
(** In whatever order the machine adds, every tabulated group is made (the assertion holds), with the operations of exact arithmetic in their order, the translations to within 3 * 10^-16
    and exact if they are halves, quarters or eighths. *)
Theorem C106_operations : forall sum e, summation sum -> In e table -> exists gens ops l,
  get_generator_from_str (e_gens e) = Ok gens /\ operations gens (e_total e) = Ok ops /\ foperations sum (map generator gens) (e_total e) = Ok l /\ Forall2 matches l ops.
Proof. intros sum e HS I. destruct (run_ok e I) as (gens & ops & l & G & O & D & K). destruct (K sum HS) as (k & E & F). exists gens, ops, k. repeat (split; [assumption|]). eapply anears_ok; eassumption. Qed.
Print Assumptions C106_operations.
(** The operations are the same doubles in whatever order the machine adds. *)
Theorem C106_same : forall sum sum' e gens, summation sum -> summation sum' -> In e table -> get_generator_from_str (e_gens e) = Ok gens ->
  foperations sum (map generator gens) (e_total e) = foperations sum' (map generator gens) (e_total e).
Proof.
  intros sum sum' e gens S S' I G'. destruct (run_ok e I) as (gens2 & ops & l & G & O & D & K). assert (gens2 = gens) by congruence. subst gens2. destruct (K sum S) as (k & -> & F). destruct (K sum' S') as (k' & -> & F'). f_equal. clear - D F F'.
  revert k k' ops D F F'. induction l as [|a l IH]; intros k k' [|o ops] D F F'; try discriminate; inversion F as [|f ? m ? R M]; inversion F' as [|f' ? m' ? R' M']; subst; [reflexivity|]. cbn in D. apply andb_prop in D. destruct D as [D D']. f_equal; [|eapply IH; eassumption].
  unfold anear, atrans in D. repeat (apply andb_prop in D; destruct D as [D ?]). repeat match goal with H : _ && _ = true |- _ => apply andb_prop in H; destruct H end. destruct f as [r x y z], f' as [r' x' y' z'], R as (Er & X & Y & Z), R' as (Er' & X' & Y' & Z'). cbn in *. f_equal; [congruence| | |]; eapply ipoint_eq; try eassumption; eapply iexact_point; eassumption.
Qed.
Print Assumptions C106_same.

(** ** Texts of operations *)
Lemma dyadic_fixed m k : (Z.abs m < 2 ^ 53)%Z -> (0 <= k <= 60)%Z -> rnd (IZR m / IZR (2 ^ k)) = IZR m / IZR (2 ^ k).
Proof. intros M K. apply rnd_double. unfold Rdiv. replace (/ IZR (2 ^ k)) with (bpow radix2 (- k)); [apply dyadic_double; [exact M|lia]|]. rewrite bpow_opp, <- (IZR_Zpower radix2) by lia. reflexivity. Qed.
Lemma int_fixed m : (Z.abs m < 2 ^ 53)%Z -> rnd (IZR m) = IZR m.
Proof. intros M. assert (E := dyadic_fixed m 0 M ltac:(lia)). change (IZR (2 ^ 0)) with 1 in E. unfold Rdiv in E. rewrite Rinv_1, Rmult_1_r in E. exact E. Qed.
Lemma rnd_between m n k x : (Z.abs m < 2 ^ 53)%Z -> (Z.abs n < 2 ^ 53)%Z -> (0 <= k <= 60)%Z -> IZR m / IZR (2 ^ k) <= x <= IZR n / IZR (2 ^ k) -> IZR m / IZR (2 ^ k) <= rnd x <= IZR n / IZR (2 ^ k).
Proof. intros M N K H. split; [rewrite <- (dyadic_fixed m k M K)|rewrite <- (dyadic_fixed n k N K)]; apply rnd_mono; lra. Qed.
Lemma znear k y : (0 <= k <= 1000)%Z -> IZR k - 7 / 16 <= y <= IZR k + 7 / 16 -> ZnearestE (rnd y) = k.
Proof.
  intros K H. assert (B := rnd_between (16 * k - 7) (16 * k + 7) 4 y ltac:(lia) ltac:(lia) ltac:(lia)). rewrite minus_IZR, plus_IZR, mult_IZR in B. change (2 ^ 4)%Z with 16%Z in B. specialize (B ltac:(lra)). apply Znearest_imp. apply Rabs_lt. lra.
Qed.
Lemma inv_between x a b : 0 < x -> a * x <= 1 -> 1 <= b * x -> a <= 1 / x <= b.
Proof. intros X A B. split; apply Rmult_le_reg_r with x; try exact X; unfold Rdiv; rewrite Rmult_assoc, Rinv_l by lra; lra. Qed.
(** The text of a translation, from what its inverse and itself are near to. *)
Lemma text_of x m n j k : 0 < x -> (Z.abs m < 2 ^ 53)%Z -> (Z.abs n < 2 ^ 53)%Z -> (0 <= j <= 1000)%Z -> (0 <= k <= 1000)%Z ->
  IZR m / 1024 * x <= 1 -> 1 <= IZR n / 1024 * x -> IZR j - 7 / 16 <= IZR m / 1024 * 10 -> IZR n / 1024 * 10 <= IZR j + 7 / 16 -> IZR k - 7 / 16 <= x * 1000 <= IZR k + 7 / 16 ->
  ftranslation_str x = (if (j =? 15)%Z then "2/3" else if Req_EM_T x (3 / 4) then "3/4" else if Req_EM_T (rnd (IZR k / 1000)) (rnd (833 / 1000)) then "5/6" else "1/" ++ str_of_int (ZnearestE (rnd (1 / x))))%string \/ (j <> 15%Z /\ rnd (IZR j / 10) = 3 / 2).
Proof.
  intros X M N J K A B C D E. assert (Y := inv_between x _ _ X A B). assert (Y' := rnd_between m n 10 (1 / x) M N ltac:(lia)). change (2 ^ 10)%Z with 1024%Z in Y'. specialize (Y' Y). unfold ftranslation_str. destruct (Req_EM_T x 0) as [Z|_]; [lra|].
  assert (R1 : round_dec 10 (rnd (1 / x)) = rnd (IZR j / 10)) by (unfold round_dec; rewrite (znear j) by (assumption || lra); reflexivity). assert (R2 : round_dec 1000 x = rnd (IZR k / 1000)) by (unfold round_dec; rewrite (znear k) by assumption; reflexivity). rewrite R1, R2.
  destruct (Z.eqb_spec j 15) as [->|Nj]; [left|].
  - assert (H : rnd (15 / 10) = 3 / 2). { replace (15 / 10) with (IZR 3 / IZR (2 ^ 1)) by (change (IZR (2 ^ 1)) with 2; lra). rewrite dyadic_fixed by (reflexivity || lia). reflexivity. } rewrite H. destruct (Req_EM_T _ _); [reflexivity|lra].
  - destruct (Req_EM_T (rnd (IZR j / 10)) (3 / 2)) as [H|H]; [right; split; assumption|left; reflexivity].
Qed.
Lemma not_three_halves j : (0 <= j <= 13 \/ 20 <= j <= 1000)%Z -> rnd (IZR j / 10) <> 3 / 2.
Proof.
  intros [J|J] H.
  - assert (B : rnd (IZR j / 10) <= rnd (IZR 11 / IZR (2 ^ 3))) by (apply rnd_mono; change (IZR (2 ^ 3)) with 8; destruct J as [_ J]; apply IZR_le in J; lra). rewrite dyadic_fixed in B by (reflexivity || lia). change (IZR (2 ^ 3)) with 8 in B. lra.
  - assert (B : rnd (IZR 2) <= rnd (IZR j / 10)) by (apply rnd_mono; destruct J as [J _]; apply IZR_le in J; lra). rewrite int_fixed in B by reflexivity. lra.
Qed.
Lemma not_833 k : (0 <= k <= 500)%Z -> rnd (IZR k / 1000) <> rnd (833 / 1000).
Proof.
  intros [_ K] H. apply IZR_le in K. assert (A : rnd (IZR k / 1000) <= rnd (IZR 1 / IZR (2 ^ 1))) by (apply rnd_mono; change (IZR (2 ^ 1)) with 2; lra). assert (B : rnd (IZR 3 / IZR (2 ^ 2)) <= rnd (833 / 1000)) by (apply rnd_mono; change (IZR (2 ^ 2)) with 4; lra).
  rewrite dyadic_fixed in A, B by (reflexivity || lia). change (IZR (2 ^ 1)) with 2 in A. change (IZR (2 ^ 2)) with 4 in B. lra.
Qed.
Lemma text_common x q c : near_to x q -> (q == c)%Q -> In c common -> ftranslation_str x = translation_str c.
Proof.
  intros [N E] Q H. rewrite (Qeq_eqR _ _ Q) in N, E. assert (E' : (exists n, c * 8 == inject_Z n)%Q -> x = Q2R c) by (intros [n Hn]; apply E; exists n; rewrite Q; exact Hn). clear E Q q.
  assert (S : 3 / 10 ^ 16 <= 1 / 1000000) by (apply Rmult_le_reg_r with (10 ^ 16); [lra|unfold Rdiv; rewrite Rmult_assoc, Rinv_l by lra; lra]). apply Rabs_le_inv in N.
  assert (T : forall c', Q2R c = c' -> c' - 1 / 1000000 <= x <= c' + 1 / 1000000) by (intros c' <-; lra). clear N S.
  assert (X34 : Q2R (3 # 4) = 3 / 4) by (unfold Q2R; cbn; lra).
  repeat (destruct H as [<-|H]; [|]); [..|destruct H].
  - rewrite E' by (exists 0%Z; reflexivity). unfold ftranslation_str, Q2R. cbn. destruct (Req_EM_T _ _) as [|W]; [reflexivity|exfalso; apply W; lra].
  - specialize (T (1 / 2) ltac:(unfold Q2R; cbn; lra)). destruct (text_of x 2047 2049 20 500) as [-> | [_ F]]; try reflexivity; try lia; try lra; [|exfalso; exact (not_three_halves 20 ltac:(lia) F)]. cbn. destruct (Req_EM_T x (3 / 4)); [lra|]. destruct (Req_EM_T _ _) as [F|_]; [exfalso; exact (not_833 500 ltac:(lia) F)|]. rewrite (znear 2); [reflexivity|lia|]. apply inv_between; lra.
  - specialize (T (1 / 3) ltac:(unfold Q2R; cbn; lra)). destruct (text_of x 3071 3073 30 333) as [-> | [_ F]]; try reflexivity; try lia; try lra; [|exfalso; exact (not_three_halves 30 ltac:(lia) F)]. cbn. destruct (Req_EM_T x (3 / 4)); [lra|]. destruct (Req_EM_T _ _) as [F|_]; [exfalso; exact (not_833 333 ltac:(lia) F)|]. rewrite (znear 3); [reflexivity|lia|]. apply inv_between; lra.
  - specialize (T (2 / 3) ltac:(unfold Q2R; cbn; lra)). destruct (text_of x 1535 1537 15 667) as [-> | [F _]]; try reflexivity; try lia; try lra; exfalso; apply F; reflexivity.
  - specialize (T (1 / 4) ltac:(unfold Q2R; cbn; lra)). destruct (text_of x 4095 4097 40 250) as [-> | [_ F]]; try reflexivity; try lia; try lra; [|exfalso; exact (not_three_halves 40 ltac:(lia) F)]. cbn. destruct (Req_EM_T x (3 / 4)); [lra|]. destruct (Req_EM_T _ _) as [F|_]; [exfalso; exact (not_833 250 ltac:(lia) F)|]. rewrite (znear 4); [reflexivity|lia|]. apply inv_between; lra.
  - specialize (T (3 / 4) ltac:(unfold Q2R; cbn; lra)). destruct (text_of x 1365 1366 13 750) as [-> | [_ F]]; try reflexivity; try lia; try lra; [|exfalso; exact (not_three_halves 13 ltac:(lia) F)]. cbn. rewrite E' by (exists 6%Z; reflexivity). destruct (Req_EM_T _ (3 / 4)) as [|W]; [reflexivity|exfalso; apply W; exact X34].
  - specialize (T (1 / 6) ltac:(unfold Q2R; cbn; lra)). destruct (text_of x 6143 6145 60 167) as [-> | [_ F]]; try reflexivity; try lia; try lra; [|exfalso; exact (not_three_halves 60 ltac:(lia) F)]. cbn. destruct (Req_EM_T x (3 / 4)); [lra|]. destruct (Req_EM_T _ _) as [F|_]; [exfalso; exact (not_833 167 ltac:(lia) F)|]. rewrite (znear 6); [reflexivity|lia|]. apply inv_between; lra.
  - specialize (T (5 / 6) ltac:(unfold Q2R; cbn; lra)). destruct (text_of x 1228 1229 12 833) as [-> | [_ F]]; try reflexivity; try lia; try lra; [|exfalso; exact (not_three_halves 12 ltac:(lia) F)]. cbn. destruct (Req_EM_T x (3 / 4)); [lra|]. destruct (Req_EM_T _ _) as [_|W]; [reflexivity|exfalso; apply W; reflexivity].
Qed.
Lemma text_atrans x q J : inI x J -> atrans q J = true -> ftranslation_str x = translation_str q.
Proof.
  intros H E. assert (N := atrans_ok q J x H E). unfold atrans in E. apply andb_prop in E. destruct E as [_ E]. apply existsb_exists in E. destruct E as (c & C & E). apply andb_prop in E. destruct E as [E F]. apply Qeq_bool_iff in E. apply String.eqb_eq in F. rewrite F. eapply text_common; eassumption.
Qed.
(** The texts of the operations are those of exact arithmetic. *)
Theorem C106_text : forall sum e gens ops l, summation sum -> In e table -> get_generator_from_str (e_gens e) = Ok gens -> operations gens (e_total e) = Ok ops ->
  foperations sum (map generator gens) (e_total e) = Ok l -> fget_str_from_generator l = get_str_from_generator ops.
Proof.
  intros sum e gens ops l S I G' O' L. destruct (run_ok e I) as (gens2 & ops2 & al & G & O & D & K). assert (gens2 = gens) by congruence. subst gens2. assert (ops2 = ops) by congruence. subst ops2. destruct (K sum S) as (k & E & F). assert (k = l) by congruence. subst k. clear - D F.
  revert l ops D F. unfold fget_str_from_generator, get_str_from_generator. induction al as [|a al IH]; intros l [|o ops] D F; try discriminate; inversion F as [|f ? m ? R M]; subst; [reflexivity|]. cbn in D. apply andb_prop in D. destruct D as [D D']. cbn [map_res]. rewrite (IH _ _ D' M).
  assert (X : fstr_of_op f = str_of_op o); [|rewrite X; reflexivity]. unfold anear in D. repeat (apply andb_prop in D; destruct D as [D ?]). apply rot_eq_ok in D. destruct R as (Er & X & Y & Z). unfold fstr_of_op, str_of_op. rewrite Er, D. unfold rot_of, fcomponent_str, component_str. rewrite (text_atrans _ (t1 o) _ X), (text_atrans _ (t2 o) _ Y), (text_atrans _ (t3 o) _ Z) by assumption. reflexivity.
Qed.
Print Assumptions C106_text.
(** Adding from left to right is one of the orders. *)
Example C106_case : summation (fun a b c d => rnd (rnd (rnd (a + b) + c) + d)) /\ exists e, In e table /\ get_generator_from_str (e_gens e) <> Ok [] /\ e_total e = 192%nat.
Proof.
  split; [intros a b c d; left; reflexivity|].
  assert (H : existsb (fun e => Nat.eqb (e_total e) 192 && match get_generator_from_str (e_gens e) with Ok [] => false | _ => true end) table = true) by (vm_compute; reflexivity).
  apply existsb_exists in H. destruct H as (e & I & H). apply andb_prop in H. destruct H as [H K]. exists e. split; [exact I|]. split; [intros E; rewrite E in K; discriminate|apply Nat.eqb_eq, H].
Qed.
Definition idiffer (J K : iv) : bool := match J, K with Some (a, b), Some (c, d) => ((b <? c) || (d <? a))%Z | _, _ => false end.
Lemma idiffer_ok x y J K : inI x J -> inI y K -> idiffer J K = true -> x <> y.
Proof. destruct J as [[a b]|], K as [[c d]|]; try easy. cbn. intros H L E. apply orb_prop in E. destruct E as [E|E]; apply Z.ltb_lt, P60_lt in E; lra. Qed.
Lemma combine_rel k l (ops : list op) p : Forall2 rel k l -> existsb p (combine l ops) = true -> exists f a o, In (f, o) (combine k ops) /\ rel f a /\ p (a, o) = true.
Proof.
  intros F. revert ops. induction F as [|f a k l H _ IH]; intros [|o ops]; cbn; try discriminate. intros E. apply orb_prop in E. destruct E as [E|E]; [exists f, a, o; auto|]. destruct (IH _ E) as (f' & a' & o' & ? & ?). exists f', a', o'. auto.
Qed.
(** A translation need not be the double nearest to the exact one, in whatever order the machine adds: in P3_2, 4/3 less 1 is not the nearest to 1/3. *)
Theorem C106_nearest_refuted : exists e gens ops, In e table /\ get_generator_from_str (e_gens e) = Ok gens /\ operations gens (e_total e) = Ok ops /\
  forall sum, summation sum -> exists l f o, foperations sum (map generator gens) (e_total e) = Ok l /\ In (f, o) (combine l ops) /\ f3 f <> rnd (Q2R (t3 o)).
Proof.
  destruct (find (fun e => String.eqb (e_key e) "P3_2") table) as [e|] eqn:E; [|vm_compute in E; discriminate]. exists e. assert (C := find_some _ _ E). destruct C as [I _].
  assert (D : match get_generator_from_str (e_gens e) with Ok gens => match operations gens (e_total e), aclosure (S (e_total e)) (e_total e) (map agen gens) (map agen gens) with
    | Ok ops, Some l => Nat.eqb (List.length l) (e_total e) && existsb (fun p => idiffer (a3 (fst p)) (ilit (t3 (snd p)))) (combine l ops) | _, _ => false end | Err _ => false end = true) by (vm_compute in E; injection E as <-; vm_compute; reflexivity).
  destruct (get_generator_from_str (e_gens e)) as [gens|]; [|discriminate]. destruct (operations gens (e_total e)) as [ops|] eqn:O; [|discriminate]. exists gens, ops. split; [exact I|]. split; [reflexivity|]. split; [exact O|]. intros sum HS.
  destruct (aclosure _ _ _ _) as [l|] eqn:A; [|discriminate]. apply andb_prop in D. destruct D as [C D]. assert (G : Forall2 rel (map generator gens) (map agen gens)) by (clear; induction gens; cbn; [constructor|]; constructor; [apply agen_ok|assumption]).
  destruct (closure_ok sum HS _ _ _ _ _ _ _ G G A) as (k & K & F). destruct (combine_rel _ _ _ _ F D) as (f & a & o & M & (_ & _ & _ & R3) & P). exists k, f, o. split; [unfold foperations; rewrite K, (rel_length _ _ F), C; reflexivity|]. split; [exact M|]. eapply idiffer_ok; [exact R3|apply ilit_ok|exact P].
Qed.
Print Assumptions C106_nearest_refuted.

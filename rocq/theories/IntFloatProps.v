(** C115: integrated intensity in floating-point arithmetic. *)
From Coq Require Import List Arith ZArith Reals Lra Lia Psatz Permutation.
From Flocq Require Import Core.
From Verif Require Import Base EnergyFloatModel BinFloatProps PointsFloatProps BgFloatProps IntFloatModel.
Import ListNotations.
Local Open Scope R_scope.

(** A way of adding that uses every entry once. *)
Fixpoint positions (s : shape) : list nat := match s with At i => [i] | Both s t => positions s ++ positions t end.
Definition adds (order : nat -> shape) : Prop := forall n, (0 < n)%nat -> Permutation (positions (order n)) (seq 0 n).
(** The points are in ascending (or equal) order of the column. *)
Fixpoint rising (x : list R) : Prop := match x with x0 :: ((x1 :: _) as x') => x0 <= x1 /\ rising x' | _ => True end.
(** The trapezoids under the points, and the same with every side counted positive. *)
Fixpoint area (y x : list R) : R :=
  match y, x with y0 :: ((y1 :: _) as y'), x0 :: ((x1 :: _) as x') => (x1 - x0) * ((y0 + y1) / 2) + area y' x' | _, _ => 0 end.
Fixpoint size (y x : list R) : R :=
  match y, x with y0 :: ((y1 :: _) as y'), x0 :: ((x1 :: _) as x') => Rabs (x1 - x0) * ((Rabs y0 + Rabs y1) / 2) + size y' x' | _, _ => 0 end.

Lemma drnd x : double (rnd x).
Proof. apply generic_format_round; [apply FLT_exp_valid; reflexivity|apply valid_rnd_N]. Qed.
Lemma dzero : double 0.
Proof. apply generic_format_0. Qed.
Lemma pieces_double y : forall x, Forall double (pieces y x).
Proof. induction y as [|y0 y IH]; intros x; [constructor|]. destruct y as [|y1 y]; [constructor|]. destruct x as [|x0 [|x1 x]]; [constructor|constructor|]. constructor; [apply drnd|apply (IH (x1 :: x))]. Qed.
Lemma pieces_length y : forall x, List.length y = List.length x -> List.length (pieces y x) = (List.length y - 1)%nat.
Proof.
  induction y as [|y0 y IH]; intros [|x0 x] H; try discriminate; [reflexivity|]. destruct y as [|y1 y], x as [|x1 x]; try discriminate; [reflexivity|]. injection H as H.
  change (S (List.length (pieces (y1 :: y) (x1 :: x))) = (List.length (y0 :: y1 :: y) - 1)%nat). rewrite (IH (x1 :: x)) by (cbn; lia). cbn. lia.
Qed.
Lemma pieces_unfold y0 y1 y x0 x1 x : pieces (y0 :: y1 :: y) (x0 :: x1 :: x) = rnd (rnd (rnd (x1 - x0) * rnd (y1 + y0)) / 2) :: pieces (y1 :: y) (x1 :: x).
Proof. reflexivity. Qed.
Lemma nth_all (P : R -> Prop) l : P 0 -> Forall P l -> forall i, P (nth i l 0).
Proof. intros Z F i. destruct (Nat.lt_ge_cases i (List.length l)) as [H|H]; [rewrite Forall_forall in F; apply F, nth_In, H|rewrite nth_overflow by exact H; exact Z]. Qed.
Lemma add_up_double s l : Forall double l -> double (add_up s l).
Proof. intros D. destruct s; cbn; [apply (nth_all double); [apply dzero|exact D]|apply drnd]. Qed.
Lemma sum_double order l : Forall double l -> double (sum_fl order l).
Proof. intros D. unfold sum_fl. destruct l; [apply dzero|apply add_up_double, D]. Qed.
Lemma fold_double order y : forall columns r, double r -> double (fold_left (fun r x => rnd (r + trapz_fl order y x)) columns r).
Proof. induction columns as [|x c IH]; intros r D; [exact D|]. cbn. apply IH, drnd. Qed.

(** C115.  An answer is given for every number of points but one. *)
Theorem C115_answers : forall order columns I bg, columns <> [] ->
  (List.length I = 1%nat -> integrate_fl order columns I bg = Err ValueError) /\ (List.length I <> 1%nat -> exists r, integrate_fl order columns I bg = Ok r /\ (List.length I = 0%nat -> r = 0)).
Proof.
  intros order [|x c] I bg N; [contradiction|]. destruct I as [|v [|w I]]; cbn [List.length]; (split; [try discriminate; try reflexivity|]); intros H; try lia.
  - eexists. split; [reflexivity|]. intros _. cbn [net_fl map]. assert (E : forall z, trapz_fl order [] z = 0) by (intros [|z0 z]; reflexivity).
    assert (F : forall c, fold_left (fun r x => rnd (r + trapz_fl order [] x)) c 0 = 0) by (induction c0 as [|z c0 IH]; cbn [fold_left]; [reflexivity|]; rewrite E, Rplus_0_r, rnd_zero; exact IH). apply F.
  - eexists. split; [reflexivity|]. intros X. discriminate.
Qed.
Print Assumptions C115_answers.

Lemma add_up_mono s l m : Forall2 Rle l m -> add_up s l <= add_up s m.
Proof.
  intros F. induction s as [i|s IHs t IHt]; cbn; [|apply rnd_mono; lra]. revert i. induction F as [|a b l m H F IH]; intros [|i]; cbn; try lra; apply IH.
Qed.
Lemma pieces_mono y : forall y' x, Forall2 Rle y y' -> rising x -> Forall2 Rle (pieces y x) (pieces y' x).
Proof.
  induction y as [|y0 y IH]; intros y' x F R; inversion F as [|a b l m H F']; subst; [constructor|]. destruct F' as [|y1 y1' y m H1 F']; [constructor|]. destruct x as [|x0 [|x1 x]]; [constructor|constructor|].
  rewrite !pieces_unfold. cbn in R. destruct R as [R1 R2]. constructor; [|apply IH; [constructor; assumption|exact R2]]. apply rnd_mono. apply Rmult_le_compat_r; [lra|]. apply rnd_mono. apply Rmult_le_compat_l; [apply rnd_nonneg; lra|apply rnd_mono; lra].
Qed.
Lemma Forall2_len {A B} (P : A -> B -> Prop) l m : Forall2 P l m -> List.length l = List.length m.
Proof. induction 1; cbn; congruence. Qed.
Lemma trapz_mono order y y' x : Forall2 Rle y y' -> rising x -> trapz_fl order y x <= trapz_fl order y' x.
Proof. intros F R. assert (P := pieces_mono y y' x F R). unfold trapz_fl, sum_fl. assert (L := Forall2_len _ _ _ P). destruct P as [|a b l m H P]; [lra|]. rewrite L. apply add_up_mono. constructor; assumption. Qed.
Lemma integrate_ok order columns I bg : List.length I <> 1%nat -> integrate_fl order columns I bg = Ok (fold_left (fun r x => rnd (r + trapz_fl order (net_fl I bg) x)) columns 0).
Proof. intros L. unfold integrate_fl. destruct columns; [reflexivity|]. destruct I as [|? [|? ?]]; try reflexivity. cbn in L. lia. Qed.
Lemma integrate_val order columns I bg r : integrate_fl order columns I bg = Ok r -> r = fold_left (fun r x => rnd (r + trapz_fl order (net_fl I bg) x)) columns 0.
Proof. unfold integrate_fl. destruct columns; [intros H; injection H as <-; reflexivity|]. destruct I as [|? [|? ?]]; intros H; try discriminate; injection H as <-; reflexivity. Qed.
(** C115.  Higher intensities, or a lower background, never give a lower integral. *)
Theorem C115_monotone : forall order columns I J b c r s, Forall rising columns -> Forall2 Rle I J -> c <= b ->
  integrate_fl order columns I b = Ok r -> integrate_fl order columns J c = Ok s -> r <= s.
Proof.
  intros order columns I J b c r s R F B. assert (L := Forall2_len _ _ _ F).
  assert (N : Forall2 Rle (net_fl I b) (net_fl J c)) by (unfold net_fl; clear L; induction F as [|a d l m H F IH]; cbn; constructor; [apply rnd_mono; lra|exact IH]).
  assert (K : forall p q, p <= q -> fold_left (fun r x => rnd (r + trapz_fl order (net_fl I b) x)) columns p <= fold_left (fun r x => rnd (r + trapz_fl order (net_fl J c) x)) columns q).
  { induction R as [|x l X R IH]; intros p q H; cbn [fold_left]; [exact H|]. apply IH, rnd_mono, Rplus_le_compat; [exact H|]. apply trapz_mono; assumption. }
  intros E1 E2. apply integrate_val in E1, E2. subst. apply K, Rle_refl.
Qed.
Print Assumptions C115_monotone.
(** C115.  Intensities not below the background never give a negative integral. *)
Theorem C115_sign : forall order columns I b r, Forall rising columns -> Forall (fun v => b <= v) I -> integrate_fl order columns I b = Ok r -> 0 <= r.
Proof.
  intros order columns I b r R F E. assert (N : Forall (fun v => 0 <= v) (net_fl I b)) by (apply Forall_map, Forall_forall; intros v V; rewrite Forall_forall in F; apply rnd_nonneg; specialize (F v V); lra).
  assert (T : forall x, rising x -> 0 <= trapz_fl order (net_fl I b) x).
  { intros x X. unfold trapz_fl, sum_fl. assert (P : Forall (fun v => 0 <= v) (pieces (net_fl I b) x)).
    { revert x X. induction N as [|y0 y Y0 N IH]; intros x X; [constructor|]. destruct N as [|y1 y Y1 N]; [constructor|]. destruct x as [|x0 [|x1 x]]; [constructor|constructor|]. rewrite pieces_unfold. cbn in X. destruct X as [X0 X1]. constructor; [|apply IH, X1].
      apply rnd_nonneg. apply Rmult_le_pos; [|lra]. apply rnd_nonneg. apply Rmult_le_pos; apply rnd_nonneg; lra. }
    destruct (pieces _ x) as [|p l] eqn:Q; [lra|]. generalize (order (List.length (p :: l))). intros s. induction s as [i|s IHs t IHt]; cbn [add_up]; [apply (nth_all (fun v => 0 <= v)); [lra|exact P]|apply rnd_nonneg; lra]. }
  assert (K : forall p, 0 <= p -> 0 <= fold_left (fun r x => rnd (r + trapz_fl order (net_fl I b) x)) columns p).
  { clear E. induction R as [|x l X R IH]; intros p H; cbn [fold_left]; [exact H|]. apply IH, rnd_nonneg. specialize (T x X). lra. }
  apply integrate_val in E. subst. apply K, Rle_refl.
Qed.
Print Assumptions C115_sign.

(** C115.  A column that does not change contributes nothing at all. *)
Theorem C115_constant : forall order before after x v I b, List.length I <> 1%nat -> (forall w, In w x -> w = v) ->
  integrate_fl order (before ++ x :: after) I b = integrate_fl order (before ++ after) I b.
Proof.
  intros order before after x v I b L C. rewrite !integrate_ok by exact L. f_equal. rewrite !fold_left_app. cbn [fold_left]. f_equal.
  assert (T : forall y, trapz_fl order y x = 0).
  { intros y. unfold trapz_fl, sum_fl. assert (P : Forall (fun p => p = 0) (pieces y x)).
    { revert x C. induction y as [|y0 y IH]; intros x C; [constructor|]. destruct y as [|y1 y]; [constructor|]. destruct x as [|x0 [|x1 x]]; [constructor|constructor|]. rewrite pieces_unfold. constructor; [|apply IH; intros w W; apply C; right; exact W].
      rewrite (C x0), (C x1) by (cbn; auto). replace (v - v) with 0 by ring. rewrite rnd_zero, Rmult_0_l, rnd_zero. unfold Rdiv. rewrite Rmult_0_l. apply rnd_zero. }
    destruct (pieces y x) as [|p l] eqn:Q; [reflexivity|]. generalize (order (List.length (p :: l))). intros s. induction s as [i|s IHs t IHt]; cbn [add_up]; [apply (nth_all (fun p => p = 0)); [reflexivity|exact P]|]. rewrite IHs, IHt, Rplus_0_r. apply rnd_zero. }
  rewrite T, Rplus_0_r. apply rnd_double, fold_double, dzero.
Qed.
Print Assumptions C115_constant.

(** C115.  Measuring along the opposite direction gives exactly the opposite integral. *)
Theorem C115_opposite : forall order columns I b r, integrate_fl order columns I b = Ok r -> integrate_fl order (map (map Ropp) columns) I b = Ok (- r).
Proof.
  intros order columns I b r E. assert (L : columns = [] \/ List.length I <> 1%nat). { destruct columns; [left; reflexivity|]. right. destruct I as [|? [|? ?]]; cbn; try discriminate; lia. }
  assert (A : forall y x, pieces y (map Ropp x) = map Ropp (pieces y x)).
  { induction y as [|y0 y IH]; intros x; [reflexivity|]. destruct y as [|y1 y]; [reflexivity|]. destruct x as [|x0 [|x1 x]]; [reflexivity|reflexivity|]. cbn [map]. rewrite !pieces_unfold. cbn [map]. rewrite <- (IH (x1 :: x)). cbn [map]. f_equal.
    replace (- x1 - - x0) with (- (x1 - x0)) by ring. rewrite rnd_opp, Ropp_mult_distr_l_reverse, rnd_opp. unfold Rdiv. rewrite Ropp_mult_distr_l_reverse. apply rnd_opp. }
  assert (B : forall s l, add_up s (map Ropp l) = - add_up s l).
  { induction s as [i|s IHs t IHt]; intros l; cbn [add_up]; [rewrite <- Ropp_0 at 1; apply map_nth|]. rewrite IHs, IHt, <- rnd_opp. f_equal. ring. }
  assert (T : forall y x, trapz_fl order y (map Ropp x) = - trapz_fl order y x).
  { intros y x. unfold trapz_fl, sum_fl. rewrite A. destruct (pieces y x) as [|p l]; [cbn; ring|]. rewrite <- B, map_length. reflexivity. }
  assert (F : forall c p, fold_left (fun r x => rnd (r + trapz_fl order (net_fl I b) x)) (map (map Ropp) c) (- p) = - fold_left (fun r x => rnd (r + trapz_fl order (net_fl I b) x)) c p).
  { induction c as [|x c IH]; intros p; cbn [fold_left map]; [reflexivity|]. rewrite T, <- IH, <- rnd_opp. do 2 f_equal. ring. }
  destruct L as [->|L]; [cbn in *; injection E as <-; rewrite Ropp_0; reflexivity|]. rewrite integrate_ok in * by exact L. injection E as <-. rewrite <- F, Ropp_0. reflexivity.
Qed.
Print Assumptions C115_opposite.

(** [a] stands for [x], whose terms have the total size [A], up to [k] relative errors and an absolute one. *)
Definition near (k : nat) (e a x A : R) : Prop := Rabs x <= A /\ 0 <= e /\ Rabs (a - x) <= ((1 + u) ^ k - 1) * A + (1 + u) ^ k * e.
Lemma near_more k m e a x A : (k <= m)%nat -> near k e a x A -> near m e a x A.
Proof.
  intros H (B & E & N). split; [exact B|]. split; [exact E|]. assert (G := growth k m H). assert (A0 : 0 <= A) by (assert (X := Rabs_pos x); lra). set (g := (1 + u) ^ k) in *. set (h := (1 + u) ^ m) in *. clearbody g h.
  assert ((g - 1) * A <= (h - 1) * A) by (apply Rmult_le_compat_r; lra). assert (g * e <= h * e) by (apply Rmult_le_compat_r; lra). lra.
Qed.
Lemma near_plus k e f a b x y A B : double a -> double b -> near k e a x A -> near k f b y B -> near (S k) (e + f) (rnd (a + b)) (x + y) (A + B).
Proof.
  intros Da Db (X & E & N) (Y & F & M). split; [apply Rle_trans with (1 := Rabs_triang x y); lra|]. split; [lra|]. assert (U := u_small). assert (R := plus_rel a b Da Db). cbn [pow]. set (g := (1 + u) ^ k) in *. clearbody g.
  assert (T : Rabs (a + b - (x + y)) <= (g - 1) * (A + B) + g * (e + f)). { replace (a + b - (x + y)) with ((a - x) + (b - y)) by ring. apply Rle_trans with (1 := Rabs_triang _ _). lra. }
  assert (S : Rabs (a + b) <= g * (A + B) + g * (e + f)). { replace (a + b) with ((a + b - (x + y)) + (x + y)) by ring. apply Rle_trans with (1 := Rabs_triang _ _). assert (Z := Rabs_triang x y). lra. }
  replace (rnd (a + b) - (x + y)) with ((rnd (a + b) - (a + b)) + (a + b - (x + y))) by ring. apply Rle_trans with (1 := Rabs_triang _ _). assert (u * Rabs (a + b) <= u * (g * (A + B) + g * (e + f))) by (apply Rmult_le_compat_l; lra). lra.
Qed.
Definition eta : R := bpow radix2 (-1075).
Lemma eta_pos : 0 < eta.
Proof. apply bpow_gt_0. Qed.
(** One trapezoid. *)
Lemma piece_near v0 v1 b x0 x1 : double v0 -> double v1 -> double b -> double x0 -> double x1 ->
  near 5 (2 * eta) (rnd (rnd (rnd (x1 - x0) * rnd (rnd (v1 - b) + rnd (v0 - b))) / 2)) ((x1 - x0) * ((v0 - b + (v1 - b)) / 2)) (Rabs (x1 - x0) * ((Rabs (v0 - b) + Rabs (v1 - b)) / 2)).
Proof.
  intros D0 D1 Db X0 X1. assert (U := u_small). assert (HE := eta_pos). assert (MM : forall v w, double v -> double w -> Rabs (rnd (v - w) - (v - w)) <= u * Rabs (v - w)) by (intros v w V W; apply plus_rel; [exact V|apply generic_format_opp, W]).
  set (d := x1 - x0). set (p := v0 - b). set (q := v1 - b). assert (Ed := MM _ _ X1 X0). fold d in Ed.
  assert (N0 : near 1 0 (rnd p) p (Rabs p)) by (split; [lra|split; [lra|]]; assert (H := MM _ _ D0 Db); fold p in H; cbn [pow]; lra).
  assert (N1 : near 1 0 (rnd q) q (Rabs q)) by (split; [lra|split; [lra|]]; assert (H := MM _ _ D1 Db); fold q in H; cbn [pow]; lra).
  destruct (near_plus 1 0 0 _ _ _ _ _ _ (drnd q) (drnd p) N1 N0) as (S1 & _ & S2). set (s := rnd (rnd q + rnd p)) in *. set (S := Rabs q + Rabs p) in *. assert (S0 : 0 <= S) by (unfold S; assert (P := Rabs_pos p); assert (Q := Rabs_pos q); lra).
  replace (Rabs p + Rabs q) with S by (unfold S; ring). replace (p + q) with (q + p) by ring. set (t := q + p) in *. clearbody s t S. clear N0 N1 MM. set (D := Rabs d) in *. assert (D0' : 0 <= D) by apply Rabs_pos. set (d' := rnd d) in *.
  assert (Hd : Rabs d' <= (1 + u) * D). { replace d' with ((d' - d) + d) by ring. apply Rle_trans with (1 := Rabs_triang _ _). fold D. lra. }
  assert (Hs : Rabs s <= (1 + u) ^ 2 * S). { replace s with ((s - t) + t) by ring. apply Rle_trans with (1 := Rabs_triang _ _). lra. }
  assert (Hds : Rabs (d' * s - d * t) <= ((1 + u) ^ 3 - 1) * (D * S)).
  { replace (d' * s - d * t) with (d' * (s - t) + (d' - d) * t) by ring. apply Rle_trans with (1 := Rabs_triang _ _). rewrite !Rabs_mult.
    apply Rle_trans with ((1 + u) * D * (((1 + u) ^ 2 - 1) * S) + u * D * S); [|right; ring]. apply Rplus_le_compat; apply Rmult_le_compat; try apply Rabs_pos; try lra. }
  assert (Pds : Rabs (d * t) <= D * S) by (rewrite Rabs_mult; apply Rmult_le_compat; try apply Rabs_pos; unfold D; lra).
  set (m := d' * s) in *. set (z := d * t) in *. set (P := D * S) in *. replace (d * (t / 2)) with (z / 2) by (unfold z; field). replace (D * (S / 2)) with (P / 2) by (unfold P; field). assert (P0 : 0 <= P) by (apply Rmult_le_pos; lra). clearbody m z P. clear - U HE Hds Pds P0.
  assert (Em := rnd_error m). fold u eta in Em. set (m' := rnd m) in *. clearbody m'.
  assert (Hm : Rabs m <= (1 + u) ^ 3 * P). { replace m with ((m - z) + z) by ring. apply Rle_trans with (1 := Rabs_triang _ _). lra. }
  assert (Um : u * Rabs m <= u * ((1 + u) ^ 3 * P)) by (apply Rmult_le_compat_l; lra).
  assert (Hm' : Rabs (m' - z) <= ((1 + u) ^ 4 - 1) * P + eta). { replace (m' - z) with ((m' - m) + (m - z)) by ring. apply Rle_trans with (1 := Rabs_triang _ _). replace ((1 + u) ^ 4) with ((1 + u) ^ 3 + u * (1 + u) ^ 3) by ring. lra. }
  assert (Eh := rnd_error (m' / 2)). fold u eta in Eh. set (h := rnd (m' / 2)) in *. clearbody h.
  assert (Hh : Rabs (m' / 2) <= (1 + u) ^ 4 * (P / 2) + eta / 2). { replace (m' / 2) with ((m' - z) / 2 + z / 2) by field. apply Rle_trans with (1 := Rabs_triang _ _). unfold Rdiv. rewrite !Rabs_mult, (Rabs_right (/ 2)) by lra. lra. }
  assert (Uh : u * Rabs (m' / 2) <= u * ((1 + u) ^ 4 * (P / 2) + eta / 2)) by (apply Rmult_le_compat_l; lra).
  split; [unfold Rdiv; rewrite Rabs_mult, (Rabs_right (/ 2)) by lra; lra|]. split; [lra|].
  replace (h - z / 2) with ((h - m' / 2) + (m' - z) / 2) by field. apply Rle_trans with (1 := Rabs_triang _ _). assert (Z : Rabs ((m' - z) / 2) = Rabs (m' - z) / 2) by (unfold Rdiv; rewrite Rabs_mult, (Rabs_right (/ 2)) by lra; reflexivity). rewrite Z.
  assert (G := growth 0 5 ltac:(lia)). assert (1 * (2 * eta) <= (1 + u) ^ 5 * (2 * eta)) by (apply Rmult_le_compat_r; lra). assert (u * eta <= 1 * eta) by (apply Rmult_le_compat_r; lra).
  replace ((1 + u) ^ 5) with ((1 + u) ^ 4 + u * (1 + u) ^ 4) in * by ring. lra.
Qed.
(** All trapezoids of a column. *)
Fixpoint sides (f : R -> R -> R -> R -> R) (y x : list R) : list R :=
  match y, x with y0 :: ((y1 :: _) as y'), x0 :: ((x1 :: _) as x') => f y0 y1 x0 x1 :: sides f y' x' | _, _ => [] end.
Definition exact_side y0 y1 x0 x1 : R := (x1 - x0) * ((y0 + y1) / 2).
Definition size_side y0 y1 x0 x1 : R := Rabs (x1 - x0) * ((Rabs y0 + Rabs y1) / 2).
Lemma area_sides y : forall x, area y x = rsum (sides exact_side y x).
Proof. induction y as [|y0 y IH]; intros x; [reflexivity|]. destruct y as [|y1 y]; [reflexivity|]. destruct x as [|x0 [|x1 x]]; [reflexivity|reflexivity|]. change (exact_side y0 y1 x0 x1 + area (y1 :: y) (x1 :: x) = exact_side y0 y1 x0 x1 + rsum (sides exact_side (y1 :: y) (x1 :: x))). rewrite IH. reflexivity. Qed.
Lemma size_sides y : forall x, size y x = rsum (sides size_side y x).
Proof. induction y as [|y0 y IH]; intros x; [reflexivity|]. destruct y as [|y1 y]; [reflexivity|]. destruct x as [|x0 [|x1 x]]; [reflexivity|reflexivity|]. change (size_side y0 y1 x0 x1 + size (y1 :: y) (x1 :: x) = size_side y0 y1 x0 x1 + rsum (sides size_side (y1 :: y) (x1 :: x))). rewrite IH. reflexivity. Qed.
Lemma near_zero k e : 0 <= e -> near k e 0 0 0.
Proof. intros E. split; [rewrite Rabs_R0; lra|]. split; [exact E|]. rewrite Rminus_0_r, Rabs_R0, Rmult_0_r. assert (G := growth 0 k ltac:(lia)). assert (0 <= (1 + u) ^ k * e) by (apply Rmult_le_pos; lra). lra. Qed.
Lemma pieces_near b : double b -> forall I x, Forall double I -> Forall double x -> forall i,
  near 5 (2 * eta) (nth i (pieces (net_fl I b) x) 0) (nth i (sides exact_side (map (fun v => v - b) I) x) 0) (nth i (sides size_side (map (fun v => v - b) I) x) 0).
Proof.
  intros Db. assert (HE := eta_pos). induction I as [|v0 I IH]; intros x DI Dx i; [destruct i; apply near_zero; lra|]. destruct I as [|v1 I]; [destruct i; apply near_zero; lra|]. destruct x as [|x0 [|x1 x]]; [destruct i; apply near_zero; lra|destruct i; apply near_zero; lra|].
  inversion DI as [|? ? V0 DI']; subst. inversion DI' as [|? ? V1 _]; subst. inversion Dx as [|? ? X0 Dx']; subst. inversion Dx' as [|? ? X1 _]; subst. destruct i as [|i]; [apply piece_near; assumption|exact (IH (x1 :: x) DI' Dx' i)].
Qed.
Lemma shape_nonempty s : (1 <= List.length (positions s))%nat.
Proof. induction s; cbn; [lia|]. rewrite app_length. lia. Qed.
Lemma add_up_near k e l m M s : Forall double l -> (forall i, near k e (nth i l 0) (nth i m 0) (nth i M 0)) ->
  near (k + (List.length (positions s) - 1)) (INR (List.length (positions s)) * e) (add_up s l) (rsum (map (fun i => nth i m 0) (positions s))) (rsum (map (fun i => nth i M 0) (positions s))).
Proof.
  intros D H. induction s as [i|s IHs t IHt]; cbn [positions add_up].
  - cbn [List.length map]. replace (k + (1 - 1))%nat with k by lia. cbn. rewrite !Rplus_0_r, Rmult_1_l. apply H.
  - rewrite !map_app, !rsum_app, app_length, plus_INR, Rmult_plus_distr_r. assert (Ls := shape_nonempty s). assert (Lt := shape_nonempty t). replace (k + (List.length (positions s) + List.length (positions t) - 1))%nat with (S (k + (List.length (positions s) + List.length (positions t) - 2))) by lia.
    apply near_plus; try (apply add_up_double; exact D); [apply (near_more (k + (List.length (positions s) - 1)))|apply (near_more (k + (List.length (positions t) - 1)))]; try assumption; lia.
Qed.
Lemma at_seq l : map (fun i => nth i l 0) (seq 0 (List.length l)) = l.
Proof. induction l as [|x l IH]; [reflexivity|]. cbn [List.length seq map nth]. f_equal. rewrite <- seq_shift, map_map. exact IH. Qed.
Lemma sides_length f y : forall x, List.length y = List.length x -> List.length (sides f y x) = (List.length y - 1)%nat.
Proof.
  induction y as [|y0 y IH]; intros [|x0 x] H; try discriminate; [reflexivity|]. destruct y as [|y1 y], x as [|x1 x]; try discriminate; [reflexivity|]. injection H as H.
  change (S (List.length (sides f (y1 :: y) (x1 :: x))) = (List.length (y0 :: y1 :: y) - 1)%nat). rewrite (IH (x1 :: x)) by (cbn; lia). cbn. lia.
Qed.
Lemma trapz_near order I b x : adds order -> Forall double I -> double b -> Forall double x -> List.length x = List.length I -> let n := List.length I in let y := map (fun v => v - b) I in
  near (n + 4) (INR n * (2 * eta)) (trapz_fl order (net_fl I b) x) (area y x) (size y x).
Proof.
  intros O DI Db Dx L n y. assert (HE := eta_pos). assert (n0 := pos_INR n). assert (LP : List.length (pieces (net_fl I b) x) = (n - 1)%nat) by (unfold net_fl; rewrite pieces_length; rewrite map_length; [reflexivity|symmetry; exact L]).
  assert (LS : forall f, List.length (sides f y x) = (n - 1)%nat) by (intros f; unfold y; rewrite sides_length; rewrite map_length; [reflexivity|symmetry; exact L]). rewrite area_sides, size_sides.
  assert (NP := pieces_near b Db I x DI Dx). fold y in NP. assert (PD := pieces_double (net_fl I b) x). unfold trapz_fl, sum_fl. destruct (pieces (net_fl I b) x) as [|p l] eqn:Q.
  - cbn in LP. assert (E1 := LS exact_side). assert (E2 := LS size_side). rewrite <- LP in E1, E2. apply length_zero_iff_nil in E1, E2. rewrite E1, E2. apply near_zero. apply Rmult_le_pos; lra.
  - rewrite <- Q in *. assert (K : (0 < n - 1)%nat) by (rewrite <- LP, Q; cbn; lia). clear Q p l. assert (A := add_up_near 5 (2 * eta) _ _ _ (order (n - 1)%nat) PD NP). assert (PO := O _ K).
    rewrite (Permutation_length PO), seq_length, !(rsum_perm _ _ (Permutation_map _ PO)) in A.
    assert (X : forall f, map (fun i => nth i (sides f y x) 0) (seq 0 (n - 1)) = sides f y x) by (intros f; rewrite <- (LS f); apply at_seq). rewrite !X in A. rewrite LP. replace (5 + (n - 1 - 1))%nat with (n + 3)%nat in A by lia. apply (near_more (n + 3)); [lia|].
    destruct A as (A1 & A2 & A3). split; [exact A1|]. split; [apply Rmult_le_pos; lra|]. apply Rle_trans with (1 := A3). apply Rplus_le_compat_l, Rmult_le_compat_l; [assert (G := growth 0 (n + 3) ltac:(lia)); lra|]. apply Rmult_le_compat_r; [lra|]. apply le_INR. lia.
Qed.
Lemma area_size y : forall x, Rabs (area y x) <= size y x.
Proof.
  induction y as [|y0 y IH]; intros x; [cbn; rewrite Rabs_R0; lra|]. destruct y as [|y1 y]; [cbn; rewrite Rabs_R0; lra|]. destruct x as [|x0 [|x1 x]]; [cbn; rewrite Rabs_R0; lra|cbn; rewrite Rabs_R0; lra|].
  change (Rabs (exact_side y0 y1 x0 x1 + area (y1 :: y) (x1 :: x)) <= size_side y0 y1 x0 x1 + size (y1 :: y) (x1 :: x)). apply Rle_trans with (1 := Rabs_triang _ _). apply Rplus_le_compat; [|apply IH]. unfold exact_side, size_side. rewrite Rabs_mult. apply Rmult_le_compat_l; [apply Rabs_pos|].
  unfold Rdiv. rewrite Rabs_mult, (Rabs_right (/ 2)) by lra. apply Rmult_le_compat_r; [lra|apply Rabs_triang].
Qed.
(** C115.  The integral is that of the trapezoids under the background-subtracted points, up to a multiple of the number of points and columns of their total size. *)
Theorem C115_accuracy : forall order columns I b r, adds order -> Forall double I -> double b -> (forall x, In x columns -> Forall double x /\ List.length x = List.length I) ->
  INR (List.length I + List.length columns + 4) <= 10 ^ 7 -> integrate_fl order columns I b = Ok r -> let y := map (fun v => v - b) I in
  Rabs (r - rsum (map (area y) columns)) <= INR (List.length I + List.length columns + 5) * / 2 ^ 53 * rsum (map (size y) columns) + INR (List.length I * List.length columns) * bpow radix2 (-1073).
Proof.
  intros order columns I b r O DI Db DC K E y. apply integrate_val in E. assert (HE := eta_pos). set (n := List.length I) in *. assert (n0 := pos_INR n).
  assert (F : forall cs k e p x A, (n + 4 <= k)%nat -> (forall c, In c cs -> In c columns) -> double p -> near k e p x A ->
    near (k + List.length cs) (e + INR (List.length cs) * (INR n * (2 * eta))) (fold_left (fun r x => rnd (r + trapz_fl order (net_fl I b) x)) cs p) (x + rsum (map (area y) cs)) (A + rsum (map (size y) cs))).
  { induction cs as [|c cs IH]; intros k e p x A Hk Hc Dp N.
    - cbn. rewrite !Rplus_0_r, Rmult_0_l, Rplus_0_r, Nat.add_0_r. exact N.
    - cbn [fold_left map List.length]. rewrite S_INR. destruct (DC c (Hc c (or_introl eq_refl))) as [Dc Lc]. assert (T := trapz_near order I b c O DI Db Dc Lc). fold n y in T. apply (near_more (n + 4) k) in T; [|exact Hk].
      assert (N' := near_plus _ _ _ _ _ _ _ _ _ Dp (sum_double order _ (pieces_double _ _)) N T). specialize (IH (S k) _ _ _ _ ltac:(lia) (fun c H => Hc c (or_intror H)) (drnd _) N').
      replace (k + S (List.length cs))%nat with (S k + List.length cs)%nat by lia. replace (x + rsum (area y c :: map (area y) cs)) with (x + area y c + rsum (map (area y) cs)) by (unfold rsum; cbn [fold_right]; ring).
      replace (A + rsum (size y c :: map (size y) cs)) with (A + size y c + rsum (map (size y) cs)) by (unfold rsum; cbn [fold_right]; ring).
      replace (e + (INR (List.length cs) + 1) * (INR n * (2 * eta))) with (e + INR n * (2 * eta) + INR (List.length cs) * (INR n * (2 * eta))) by ring. exact IH. }
  destruct (F columns (n + 4)%nat 0 0 0 0 (le_n _) (fun c H => H) dzero (near_zero _ _ (Rle_refl 0))) as (S1 & S2 & S3). rewrite <- E, !Rplus_0_l in S3. rewrite !Rplus_0_l in S1. set (c := List.length columns) in *. assert (c0 := pos_INR c).
  replace (n + 4 + c)%nat with (n + c + 4)%nat in S3 by lia. assert (G := growth_bound _ K). assert (U := u_small). rewrite <- S_INR in G. replace (S (n + c + 4)) with (n + c + 5)%nat in G by lia. apply Rle_trans with (1 := S3). fold u.
  assert (Z0 : 0 <= rsum (map (size y) columns)) by (assert (Z := Rabs_pos (rsum (map (area y) columns))); lra). apply Rplus_le_compat; [apply Rmult_le_compat_r; assumption|].
  rewrite mult_INR. replace (bpow radix2 (-1073)) with (4 * eta) by (unfold eta; change 4 with (bpow radix2 2); rewrite <- bpow_plus; reflexivity).
  assert (G2 : (1 + u) ^ (n + c + 4) <= 2). { assert (INR (n + c + 5) * u <= 1); [|lra]. replace (n + c + 5)%nat with (S (n + c + 4)) by lia. rewrite S_INR. apply Rle_trans with ((10 ^ 7 + 1) * / 10 ^ 15); [apply Rmult_le_compat; try lra; assert (Q := pos_INR (n + c + 4)); lra|lra]. }
  apply Rle_trans with (2 * (INR c * (INR n * (2 * eta)))); [apply Rmult_le_compat_r; [|exact G2]|right; ring]. apply Rmult_le_pos; [exact c0|]. apply Rmult_le_pos; lra.
Qed.
Print Assumptions C115_accuracy.

(** Multiples of a power of two. *)
Definition grid (e : Z) (z : R) : Prop := exists m, z = IZR m * bpow radix2 e.
Lemma grid_double e z : (-1074 <= e)%Z -> grid e z -> Rabs z < bpow radix2 (53 + e) -> double z.
Proof.
  intros E [m ->] H. apply dyadic_double; [|exact E]. apply lt_IZR. rewrite abs_IZR. change (IZR (2 ^ 53)) with (bpow radix2 53). assert (P := bpow_gt_0 radix2 e). apply (Rmult_lt_reg_r (bpow radix2 e)); [exact P|]. rewrite <- bpow_plus.
  rewrite Rabs_mult, (Rabs_right (bpow radix2 e)) in H by lra. exact H.
Qed.
Lemma grid_plus e y z : grid e y -> grid e z -> grid e (y + z).
Proof. intros [m ->] [n ->]. exists (m + n)%Z. rewrite plus_IZR. ring. Qed.
Lemma grid_minus e y z : grid e y -> grid e z -> grid e (y - z).
Proof. intros [m ->] [n ->]. exists (m - n)%Z. rewrite minus_IZR. ring. Qed.
Lemma grid_mult e f y z : grid e y -> grid f z -> grid (e + f) (y * z).
Proof. intros [m ->] [n ->]. exists (m * n)%Z. rewrite mult_IZR, bpow_plus. ring. Qed.
Lemma grid_half e y : grid e y -> grid (e - 1) (y / 2).
Proof. intros [m ->]. exists m. replace (e - 1)%Z with (e + -1)%Z by lia. rewrite bpow_plus. replace (bpow radix2 (-1)) with (/ 2) by (cbn; lra). field. Qed.
Lemma grid_zero e : grid e 0.
Proof. exists 0%Z. ring. Qed.
Lemma size_pos y : forall x, 0 <= size y x.
Proof. intros x. assert (A := area_size y x). assert (B := Rabs_pos (area y x)). lra. Qed.
Lemma sides_pos y : forall x, Forall (fun z => 0 <= z) (sides size_side y x).
Proof.
  induction y as [|y0 y IH]; intros x; [constructor|]. destruct y as [|y1 y]; [constructor|]. destruct x as [|x0 [|x1 x]]; [constructor|constructor|]. constructor; [|apply (IH (x1 :: x))]. unfold size_side. assert (P := Rabs_pos y0). assert (Q := Rabs_pos y1). apply Rmult_le_pos; [apply Rabs_pos|lra].
Qed.
Lemma sides_le y : forall x i, Rabs (nth i (sides exact_side y x) 0) <= nth i (sides size_side y x) 0.
Proof.
  induction y as [|y0 y IH]; intros x i; [destruct i; cbn; rewrite Rabs_R0; lra|]. destruct y as [|y1 y]; [destruct i; cbn; rewrite Rabs_R0; lra|]. destruct x as [|x0 [|x1 x]]; [destruct i; cbn; rewrite Rabs_R0; lra|destruct i; cbn; rewrite Rabs_R0; lra|].
  destruct i as [|i]; [|apply (IH (x1 :: x) i)]. cbn [sides nth]. unfold exact_side, size_side. rewrite Rabs_mult. apply Rmult_le_compat_l; [apply Rabs_pos|]. unfold Rdiv. rewrite Rabs_mult, (Rabs_right (/ 2)) by lra. apply Rmult_le_compat_r; [lra|apply Rabs_triang].
Qed.
Lemma add_up_exact e l M s : (-1074 <= e)%Z -> (forall i, grid e (nth i l 0) /\ Rabs (nth i l 0) <= nth i M 0) -> (forall i, 0 <= nth i M 0) -> rsum (map (fun i => nth i M 0) (positions s)) < bpow radix2 (53 + e) ->
  add_up s l = rsum (map (fun i => nth i l 0) (positions s)) /\ grid e (add_up s l) /\ Rabs (add_up s l) <= rsum (map (fun i => nth i M 0) (positions s)).
Proof.
  intros E G P. induction s as [i|s IHs t IHt]; cbn [positions add_up].
  - cbn. rewrite !Rplus_0_r. intros _. split; [reflexivity|apply G].
  - rewrite !map_app, !rsum_app. intros B. assert (Q : forall ps, 0 <= rsum (map (fun i => nth i M 0) ps)) by (intros ps; apply rsum_pos, Forall_map, Forall_forall; intros; apply P). assert (Qs := Q (positions s)). assert (Qt := Q (positions t)).
    destruct (IHs ltac:(lra)) as (A1 & B1 & C1). destruct (IHt ltac:(lra)) as (A2 & B2 & C2). assert (Gs := grid_plus _ _ _ B1 B2). assert (T : Rabs (add_up s l + add_up t l) <= rsum (map (fun i => nth i M 0) (positions s)) + rsum (map (fun i => nth i M 0) (positions t))) by (apply Rle_trans with (1 := Rabs_triang _ _); lra).
    rewrite rnd_double by (apply (grid_double e); [exact E|exact Gs|lra]). rewrite <- A1, <- A2. auto.
Qed.
Lemma pieces_exact k b : (0 <= k <= 1000)%Z -> forall I x, Forall (fun v => grid 0 (v - b) /\ Rabs (v - b) <= bpow radix2 51) I -> Forall (fun z => grid (- k) z /\ Rabs z <= bpow radix2 (51 - k)) x -> size (map (fun v => v - b) I) x < bpow radix2 (52 - k) ->
  pieces (net_fl I b) x = sides exact_side (map (fun v => v - b) I) x /\ forall i, grid (- k - 1) (nth i (pieces (net_fl I b) x) 0).
Proof.
  intros K. induction I as [|v0 I IH]; intros x HI Hx B; [split; [reflexivity|intros []; apply grid_zero]|]. destruct I as [|v1 I]; [split; [reflexivity|intros [|[]]; apply grid_zero]|]. destruct x as [|x0 [|x1 x]]; [split; [reflexivity|intros []; apply grid_zero]|split; [reflexivity|intros []; apply grid_zero]|].
  inversion HI as [|? ? [V0 V0'] HI']; subst. inversion HI' as [|? ? [V1 V1'] _]; subst. inversion Hx as [|? ? [X0 X0'] Hx']; subst. inversion Hx' as [|? ? [X1 X1'] _]; subst.
  cbn [map] in B. change (size_side (v0 - b) (v1 - b) x0 x1 + size (map (fun v => v - b) (v1 :: I)) (x1 :: x) < bpow radix2 (52 - k)) in B. assert (S0 := size_pos (map (fun v => v - b) (v1 :: I)) (x1 :: x)).
  assert (S1 : 0 <= size_side (v0 - b) (v1 - b) x0 x1) by (unfold size_side; assert (P := Rabs_pos (v0 - b)); assert (Q := Rabs_pos (v1 - b)); apply Rmult_le_pos; [apply Rabs_pos|lra]). destruct (IH (x1 :: x) HI' Hx' ltac:(lra)) as [J1 J2].
  assert (two : forall z, bpow radix2 (z + 1) = 2 * bpow radix2 z) by (intros z; rewrite bpow_plus; change (bpow radix2 1) with 2; ring).
  assert (N0 : rnd (v0 - b) = v0 - b) by (apply rnd_double, (grid_double 0); [lia|exact V0|]; apply Rle_lt_trans with (1 := V0'); apply bpow_lt; lia).
  assert (N1 : rnd (v1 - b) = v1 - b) by (apply rnd_double, (grid_double 0); [lia|exact V1|]; apply Rle_lt_trans with (1 := V1'); apply bpow_lt; lia).
  assert (Gd := grid_minus _ _ _ X1 X0). assert (Gs := grid_plus _ _ _ V1 V0).
  assert (Nd : rnd (x1 - x0) = x1 - x0). { apply rnd_double, (grid_double (- k)); [lia|exact Gd|]. apply Rle_lt_trans with (Rabs x1 + Rabs x0); [unfold Rminus; apply Rle_trans with (1 := Rabs_triang _ _); rewrite Rabs_Ropp; lra|]. apply Rle_lt_trans with (2 * bpow radix2 (51 - k)); [lra|]. rewrite <- two. apply bpow_lt. lia. }
  assert (Ns : rnd (v1 - b + (v0 - b)) = v1 - b + (v0 - b)). { apply rnd_double, (grid_double 0); [lia|exact Gs|]. apply Rle_lt_trans with (1 := Rabs_triang _ _). apply Rle_lt_trans with (2 * bpow radix2 51); [lra|]. rewrite <- two. apply bpow_lt. lia. }
  assert (Gp := grid_mult _ _ _ _ Gd Gs). rewrite Z.add_0_r in Gp. assert (Gh := grid_half _ _ Gp).
  assert (Sp : Rabs ((x1 - x0) * (v1 - b + (v0 - b))) <= 2 * size_side (v0 - b) (v1 - b) x0 x1). { unfold size_side. rewrite Rabs_mult. assert (T := Rabs_triang (v1 - b) (v0 - b)). apply Rle_trans with (Rabs (x1 - x0) * (Rabs (v0 - b) + Rabs (v1 - b))); [apply Rmult_le_compat_l; [apply Rabs_pos|lra]|right; field]. }
  assert (Np : rnd ((x1 - x0) * (v1 - b + (v0 - b))) = (x1 - x0) * (v1 - b + (v0 - b))). { apply rnd_double, (grid_double (- k)); [lia|exact Gp|]. apply Rle_lt_trans with (1 := Sp). replace (53 + - k)%Z with (52 - k + 1)%Z by lia. rewrite two. lra. }
  assert (Nh : rnd ((x1 - x0) * (v1 - b + (v0 - b)) / 2) = (x1 - x0) * (v1 - b + (v0 - b)) / 2). { apply rnd_double, (grid_double (- k - 1)); [lia|exact Gh|]. unfold Rdiv. rewrite Rabs_mult, (Rabs_right (/ 2)) by lra. replace (53 + (- k - 1))%Z with (52 - k)%Z by lia. lra. }
  cbn [net_fl map]. change (rnd (v0 - b) :: rnd (v1 - b) :: map (fun v => rnd (v - b)) I) with (rnd (v0 - b) :: net_fl (v1 :: I) b). unfold net_fl at 1 2. cbn [map]. rewrite pieces_unfold, N0, N1, Nd, Ns, Np, Nh. change (map (fun v => rnd (v - b)) I) with (net_fl I b).
  assert (Q : rnd (v1 - b) :: net_fl I b = net_fl (v1 :: I) b) by reflexivity. rewrite N1 in Q. rewrite Q. split; [|intros [|i]; [exact Gh|apply J2]].
  cbn [sides]. rewrite J1. f_equal. unfold exact_side. field.
Qed.
(** C115.  Whole numbers of counts at coordinates that are multiples of a power of two are integrated exactly, in whatever order the trapezoids are added. *)
Theorem C115_exact : forall order columns I b r k, adds order -> (0 <= k <= 1000)%Z -> (forall v, In v I -> grid 0 (v - b) /\ Rabs (v - b) <= 2 ^ 51) ->
  (forall x, In x columns -> List.length x = List.length I /\ forall z, In z x -> grid (- k) z /\ Rabs z <= bpow radix2 (51 - k)) ->
  let y := map (fun v => v - b) I in rsum (map (size y) columns) < bpow radix2 (52 - k) -> integrate_fl order columns I b = Ok r -> r = rsum (map (area y) columns).
Proof.
  intros order columns I b r k O K HI HC y B E. apply integrate_val in E. subst r. assert (HI' : Forall (fun v => grid 0 (v - b) /\ Rabs (v - b) <= bpow radix2 51) I) by (apply Forall_forall; intros v V; destruct (HI v V); split; [assumption|replace (bpow radix2 51) with (2 ^ 51) by (cbn; lra); assumption]).
  assert (T : forall x, In x columns -> size y x < bpow radix2 (52 - k) -> trapz_fl order (net_fl I b) x = area y x /\ grid (- k - 1) (area y x)).
  { intros x X S. destruct (HC x X) as [L Z]. destruct (pieces_exact k b K I x HI' ltac:(apply Forall_forall; exact Z) S) as [P G]. fold y in P. unfold trapz_fl, sum_fl. rewrite P in *. rewrite area_sides. destruct (sides exact_side y x) as [|p l] eqn:Q; [split; [reflexivity|apply grid_zero]|]. rewrite <- Q in *.
    assert (n0 : (0 < List.length (sides exact_side y x))%nat) by (rewrite Q; cbn; lia). assert (PO := O _ n0). set (s := order _) in *. assert (LS : List.length (sides size_side y x) = List.length (sides exact_side y x)) by (unfold y; rewrite !sides_length; rewrite ?map_length; congruence).
    destruct (add_up_exact (- k - 1) (sides exact_side y x) (sides size_side y x) s) as (A1 & A2 & _); [lia|intros i; split; [apply G|apply sides_le]|intros i; apply (nth_all (fun z => 0 <= z)); [lra|apply sides_pos]| |].
    - rewrite (rsum_perm _ _ (Permutation_map _ PO)), <- LS, at_seq, <- size_sides. replace (53 + (- k - 1))%Z with (52 - k)%Z by lia. exact S.
    - rewrite (rsum_perm _ _ (Permutation_map _ PO)), at_seq in A1. rewrite <- A1. auto. }
  assert (F : forall cs p A, (forall c, In c cs -> In c columns) -> grid (- k - 1) p -> Rabs p <= A -> A + rsum (map (size y) cs) < bpow radix2 (52 - k) -> fold_left (fun r x => rnd (r + trapz_fl order (net_fl I b) x)) cs p = p + rsum (map (area y) cs)).
  { induction cs as [|c cs IH]; intros p A Hc Gp Hp HB; [cbn; ring|]. cbn [fold_left map]. cbn [map] in HB; change (rsum (size y c :: map (size y) cs)) with (size y c + rsum (map (size y) cs)) in HB.
    assert (S1 := size_pos y c). assert (S2 : 0 <= rsum (map (size y) cs)) by (apply rsum_pos, Forall_map, Forall_forall; intros; apply size_pos). assert (A0 : 0 <= A) by (assert (X := Rabs_pos p); lra).
    destruct (T c (Hc c (or_introl eq_refl)) ltac:(lra)) as [-> Gc]. assert (AS := area_size y c). assert (G := grid_plus _ _ _ Gp Gc). assert (R : Rabs (p + area y c) <= A + size y c) by (apply Rle_trans with (1 := Rabs_triang _ _); lra).
    rewrite rnd_double by (apply (grid_double (- k - 1)); [lia|exact G|]; replace (53 + (- k - 1))%Z with (52 - k)%Z by lia; lra). rewrite (IH _ (A + size y c)) by (try assumption; try lra; intros; apply Hc; right; assumption). unfold rsum. cbn [fold_right]. ring. }
  rewrite (F columns 0 0); [ring|auto|apply grid_zero|rewrite Rabs_R0; lra|lra].
Qed.
Print Assumptions C115_exact.

Fixpoint chain (n : nat) : shape := match n with 0%nat => At 0 | S n => Both (chain n) (At (S n)) end.
Lemma chain_adds : adds (fun n => chain (n - 1)).
Proof.
  intros n H. destruct n as [|n]; [lia|]. replace (S n - 1)%nat with n by lia. clear H. induction n as [|n IH]; [reflexivity|]. cbn [chain positions]. rewrite seq_S. apply Permutation_app; [exact IH|reflexivity].
Qed.
(** ** Example: energies 0, 1/4, 3/4 at h = 1, counts 3, 7, 4 over a background of 1. *)
Example C115_case : let columns := [[1; 1; 1]; [0; 1 / 4; 3 / 4]] in let I := [3; 7; 4] in
  adds (fun n => chain (n - 1)) /\ Forall rising columns /\ Forall (fun v => 1 <= v) I /\ integrate_fl (fun n => chain (n - 1)) columns I 1 = Ok (13 / 4).
Proof.
  cbv zeta. split; [exact chain_adds|]. split; [repeat constructor; cbn; lra|]. split; [repeat constructor; lra|]. rewrite integrate_ok by discriminate. f_equal.
  assert (W : forall z, grid 0 (IZR z)) by (intros z; exists z; cbn; ring). assert (Gq : forall z, grid (- 2) (IZR z / 4)) by (intros z; exists z; cbn; lra).
  set (r := fold_left _ _ 0). assert (E : integrate_fl (fun n => chain (n - 1)) [[1; 1; 1]; [0; 1 / 4; 3 / 4]] [3; 7; 4] 1 = Ok r) by (apply integrate_ok; discriminate). clearbody r.
  assert (S : forall a, 0 <= a -> Rabs a = a) by (intros a H; apply Rabs_right; lra). assert (P50 : bpow radix2 50 = 1125899906842624) by (cbn; lra). assert (P49 : bpow radix2 49 = 562949953421312) by (cbn; lra).
  apply (C115_exact _ _ _ _ _ 2 chain_adds) in E; [|lia| | |].
  - rewrite E. unfold rsum. cbn. lra.
  - intros v V. cbn in V. split; [destruct V as [<-|[<-|[<-|[]]]]; [exists 2%Z|exists 6%Z|exists 3%Z]; cbn; lra|]. rewrite S; destruct V as [<-|[<-|[<-|[]]]]; lra.
  - intros x X. split; [destruct X as [<-|[<-|[]]]; reflexivity|]. intros z Z. replace (51 - 2)%Z with 49%Z by lia. rewrite P49. cbn in X. destruct X as [<-|[<-|[]]]; cbn in Z.
    + split; [exists 4%Z; cbn; destruct Z as [<-|[<-|[<-|[]]]]; lra|rewrite S; destruct Z as [<-|[<-|[<-|[]]]]; lra].
    + split; [destruct Z as [<-|[<-|[<-|[]]]]; [exists 0%Z|exists 1%Z|exists 3%Z]; cbn; lra|rewrite S; destruct Z as [<-|[<-|[<-|[]]]]; lra].
  - replace (52 - 2)%Z with 50%Z by lia. rewrite P50. unfold rsum. cbn. rewrite !S by lra. lra.
Qed.

(** C91: the widths printed beside projections of the resolution. *)
From Coq Require Import String List ZArith Reals Lia Lra.
From Verif Require Import Base NumBounds MatModel MatProps EllipseProps DescribeModel DescribeProps SliceModel.
Import ListNotations.
Local Open Scope R_scope.

Lemma Rmax_Rle_or x y : Rmax x y = x \/ Rmax x y = y.
Proof. unfold Rmax. destruct (Rle_dec x y); auto. Qed.
Lemma Rmin_or x y : Rmin x y = x \/ Rmin x y = y.
Proof. unfold Rmin. destruct (Rle_dec x y); auto. Qed.
Lemma fold_max l : forall x, x <= fold_left Rmax l x /\ (forall y, In y l -> y <= fold_left Rmax l x) /\ (fold_left Rmax l x = x \/ In (fold_left Rmax l x) l).
Proof.
  induction l as [|z l IH]; intros x; cbn [fold_left]; [split; [lra|split; [intros y []|auto]]|]. destruct (IH (Rmax x z)) as (A & B & C). assert (X := Rmax_l x z). assert (Z := Rmax_r x z). split; [lra|]. split.
  - intros y [->|I]; [lra|apply B, I].
  - destruct C as [C|C]; [|right; right; exact C]. rewrite C. destruct (Rmax_Rle_or x z) as [E|E]; rewrite E; [auto|right; left; reflexivity].
Qed.
Lemma fold_min l : forall x, fold_left Rmin l x <= x /\ (forall y, In y l -> fold_left Rmin l x <= y) /\ (fold_left Rmin l x = x \/ In (fold_left Rmin l x) l).
Proof.
  induction l as [|z l IH]; intros x; cbn [fold_left]; [split; [lra|split; [intros y []|auto]]|]. destruct (IH (Rmin x z)) as (A & B & C). assert (X := Rmin_l x z). assert (Z := Rmin_r x z). split; [lra|]. split.
  - intros y [->|I]; [lra|apply B, I].
  - destruct C as [C|C]; [|right; right; exact C]. rewrite C. destruct (Rmin_or x z) as [E|E]; rewrite E; [auto|right; left; reflexivity].
Qed.
Lemma np_max_spec l : l <> [] -> exists v, np_max l = Ok v /\ In v l /\ forall y, In y l -> y <= v.
Proof.
  destruct l as [|x l]; [congruence|]. intros _. destruct (fold_max l x) as (A & B & C). eexists. split; [reflexivity|]. split; [destruct C as [->|C]; [left; reflexivity|right; exact C]|]. intros y [->|I]; auto.
Qed.
Lemma np_min_spec l : l <> [] -> exists v, np_min l = Ok v /\ In v l /\ forall y, In y l -> v <= y.
Proof.
  destruct l as [|x l]; [congruence|]. intros _. destruct (fold_min l x) as (A & B & C). eexists. split; [reflexivity|]. split; [destruct C as [->|C]; [left; reflexivity|right; exact C]|]. intros y [->|I]; auto.
Qed.

(** Some point of a circle divided into n parts is within half a part of a given direction. *)
Lemma cos_turns x (j : Z) : cos (x + 2 * PI * IZR j) = cos x.
Proof.
  destruct (Z_le_dec 0 j) as [L|L].
  - rewrite <- (Z2Nat.id j L), <- INR_IZR_INZ. replace (x + 2 * PI * INR (Z.to_nat j)) with (x + 2 * INR (Z.to_nat j) * PI) by ring. apply cos_period.
  - set (n := Z.to_nat (- j)). assert (E : IZR j = - INR n). { unfold n. rewrite INR_IZR_INZ, Z2Nat.id by lia. rewrite opp_IZR. ring. }
    rewrite <- (cos_period (x + 2 * PI * IZR j) n). f_equal. rewrite E. ring.
Qed.
Lemma sampled n d : (1 <= n)%nat -> exists i, (i < n)%nat /\ cos (PI / INR n) <= cos (2 * PI * INR i / INR n + d).
Proof.
  intros Hn. assert (Pn : 0 < INR n) by (apply lt_0_INR; lia). assert (PP := PI_RGT_0). set (z := - d * INR n / (2 * PI)). set (I := up (z - / 2)). assert (Bz := archimed (z - / 2)). fold I in Bz.
  assert (B : Rabs (IZR I - z) <= / 2) by (apply Rabs_le; lra). assert (N0 : (0 < Z.of_nat n)%Z) by lia. assert (M := Z.mod_pos_bound I (Z.of_nat n) N0). exists (Z.to_nat (I mod Z.of_nat n)). split; [lia|].
  rewrite (INR_IZR_INZ (Z.to_nat _)), Z2Nat.id by lia. assert (D := Z.div_mod I (Z.of_nat n) ltac:(lia)). assert (E : IZR I = INR n * IZR (I / Z.of_nat n) + IZR (I mod Z.of_nat n)) by (rewrite D at 1; rewrite plus_IZR, mult_IZR, <- INR_IZR_INZ; reflexivity).
  rewrite <- (cos_turns (2 * PI * IZR (I mod Z.of_nat n) / INR n + d) (I / Z.of_nat n)). set (y := 2 * PI * IZR (I mod Z.of_nat n) / INR n + d + 2 * PI * IZR (I / Z.of_nat n)).
  assert (Ey : y = 2 * PI / INR n * (IZR I - z)). { unfold y. rewrite E. unfold z. field. split; lra. }
  assert (By : Rabs y <= PI / INR n). { rewrite Ey, Rabs_mult. rewrite (Rabs_right (2 * PI / INR n)) by (apply Rle_ge, Rlt_le, Rdiv_lt_0_compat; lra). replace (PI / INR n) with (2 * PI / INR n * / 2) by (field; lra). apply Rmult_le_compat_l; [apply Rlt_le, Rdiv_lt_0_compat; lra|exact B]. }
  assert (Up : PI / INR n <= PI). { assert (1 <= INR n) by (replace 1 with (INR 1) by reflexivity; apply le_INR; lia). apply (Rmult_le_reg_r (INR n)); [lra|]. replace (PI / INR n * INR n) with PI by (field; lra). nra. }
  assert (Ca : cos y = cos (Rabs y)) by (unfold Rabs; destruct (Rcase_abs y); [rewrite cos_neg|]; reflexivity). rewrite Ca. assert (0 <= Rabs y) by apply Rabs_pos. apply cos_decr_1; lra.
Qed.

Lemma between x r : Rabs x <= r -> - r <= x <= r.
Proof. unfold Rabs. destruct (Rcase_abs x); lra. Qed.

Lemma quot_pos x y : 0 <= x -> 0 < y -> 0 <= x / y.
Proof. intros X Y. apply Rmult_le_pos; [exact X|]. apply Rlt_le, Rinv_0_lt_compat, Y. Qed.

(** * One ellipse *)
(** X is how far a set of numbers, symmetric about 0, reaches. *)
Definition reach (body : R -> Prop) (X : R) : Prop := body X /\ body (- X) /\ forall x, body x -> Rabs x <= X.
Lemma reach_unique b X Y : reach b X -> reach b Y -> X = Y.
Proof. intros (A & A' & B) (C & C' & D). assert (E := Rle_abs X). assert (F := Rle_abs Y). specialize (B Y C). specialize (D X A). lra. Qed.
Definition hw : R := 117741 / 100000.
(** The range of the first coordinate of the ellipse; [s] is -1 for the second coordinate. *)
Lemma harmonic a b c d : exists r e, 0 <= r /\ r * r = (a * c) * (a * c) + (b * d) * (b * d) /\ forall t, a * cos t * c - b * sin t * d = r * cos (t + e).
Proof.
  destruct (atan2_polar (b * d) (a * c)) as [C S]. set (r := sqrt _) in *. exists r, (atan2 (b * d) (a * c)). split; [apply sqrt_pos|]. split; [unfold r; apply sqrt_sqrt; nra|]. intros t. rewrite cos_plus. replace (r * _) with ((r * cos (atan2 (b * d) (a * c))) * cos t - (r * sin (atan2 (b * d) (a * c))) * sin t) by ring. rewrite C, S. ring.
Qed.
Lemma nth_points a b phi o n p : In p (ellipse a b phi o (S n)) <-> exists i, (i <= n)%nat /\ p = (a * cos (linspace (S n) i) * cos phi - b * sin (linspace (S n) i) * sin phi + fst o, a * cos (linspace (S n) i) * sin phi + b * sin (linspace (S n) i) * cos phi + snd o).
Proof. unfold ellipse. rewrite in_map_iff. split; intros (i & H & K); exists i; [apply in_seq in K; split; [lia|auto]|split; [auto|apply in_seq; lia]]. Qed.
Definition spans (n : nat) (o lo hi r : R) : Prop := r * cos (PI / INR n) <= hi - o <= r /\ r * cos (PI / INR n) <= o - lo <= r.
Lemma ellipse_spans (sel : R * R -> R) a b phi o n c d : (1 <= n)%nat ->
  (forall t, sel (a * cos t * cos phi - b * sin t * sin phi + fst o, a * cos t * sin phi + b * sin t * cos phi + snd o) = a * cos t * c - b * sin t * d + sel o) ->
  exists r lo hi, 0 <= r /\ r * r = (a * c) * (a * c) + (b * d) * (b * d) /\ np_min (map sel (ellipse a b phi o (S n))) = Ok lo /\ np_max (map sel (ellipse a b phi o (S n))) = Ok hi /\ spans n (sel o) lo hi r.
Proof.
  intros Hn Hs. destruct (harmonic a b c d) as (r & e & Pr & Er & Hr). assert (Ne : map sel (ellipse a b phi o (S n)) <> []) by (cbn; discriminate).
  destruct (np_max_spec _ Ne) as (hi & Eh & Ih & Mh). destruct (np_min_spec _ Ne) as (lo & El & Il & Ml). exists r, lo, hi. repeat (split; [assumption|]).
  assert (P : forall v, In v (map sel (ellipse a b phi o (S n))) <-> exists i, (i <= n)%nat /\ v = r * cos (linspace (S n) i + e) + sel o).
  { intros v. rewrite in_map_iff. split.
    - intros (p & <- & I). apply nth_points in I as (i & Li & ->). exists i. split; [exact Li|]. rewrite Hs, Hr. reflexivity.
    - intros (i & Li & ->). eexists. split; [|apply nth_points; exists i; split; [exact Li|reflexivity]]. rewrite Hs, Hr. reflexivity. }
  assert (U : forall v, In v (map sel (ellipse a b phi o (S n))) -> Rabs (v - sel o) <= r). { intros v H. apply P in H as (i & _ & ->). assert (B := COS_bound (linspace (S n) i + e)). apply Rabs_le. nra. }
  assert (L : forall i, linspace (S n) i = 2 * PI * INR i / INR n). { intros i. unfold linspace. destruct (Nat.leb_spec (S n) 1); [lia|]. rewrite Nat.sub_succ, Nat.sub_0_r. reflexivity. }
  unfold spans. assert (Uh := U hi Ih). assert (Ul := U lo Il). split; split.
  - destruct (sampled n e Hn) as (i & Li & Ci). assert (H : In (r * cos (linspace (S n) i + e) + sel o) (map sel (ellipse a b phi o (S n)))) by (apply P; exists i; split; [lia|reflexivity]). apply Mh in H. rewrite L in H. nra.
  - apply between in Uh. lra.
  - destruct (sampled n (e + PI) Hn) as (i & Li & Ci). assert (H : In (r * cos (linspace (S n) i + e) + sel o) (map sel (ellipse a b phi o (S n)))) by (apply P; exists i; split; [lia|reflexivity]). apply Ml in H. rewrite L in H. rewrite <- Rplus_assoc, neg_cos in Ci. nra.
  - apply between in Ul. lra.
Qed.

(** The set under the curve at level [h]. *)
Definition under (h : R) (m : mat) (x y : R) : Prop := quad 2 m (vec2 x y) <= h.
Lemma reach_rotated m th p0 p1 (c d : R) (sel : R -> R -> R) r :
  0 < p0 -> 0 < p1 -> (forall u v, quad 2 m (vec2 (u * cos th - v * sin th) (u * sin th + v * cos th)) = p0 * u * u + p1 * v * v) ->
  (forall u v, sel (u * cos th - v * sin th) (u * sin th + v * cos th) = u * c - v * d) -> 0 <= r -> 0 < c * c + d * d ->
  r * r = (hw / sqrt p0 * c) * (hw / sqrt p0 * c) + (hw / sqrt p1 * d) * (hw / sqrt p1 * d) ->
  reach (fun s => exists x y, sel x y = s /\ under (hw * hw) m x y) r.
Proof.
  intros P0 P1 Hq Hs Pr Pcd Er. assert (Ph : 0 < hw) by (unfold hw; lra). assert (S0 := sqrt_lt_R0 _ P0). assert (S1 := sqrt_lt_R0 _ P1). assert (Q0 : sqrt p0 * sqrt p0 = p0) by (apply sqrt_sqrt; lra). assert (Q1 : sqrt p1 * sqrt p1 = p1) by (apply sqrt_sqrt; lra).
  assert (Er' : r * r = hw * hw * (c * c / p0 + d * d / p1)). { rewrite Er. rewrite <- Q0 at 3. rewrite <- Q1 at 3. field. split; lra. }
  assert (Pr' : 0 < r). { assert (0 < r * r); [|nra]. rewrite Er'. apply Rmult_lt_0_compat; [nra|]. assert (0 <= c * c / p0) by (apply quot_pos; nra). assert (0 <= d * d / p1) by (apply quot_pos; nra). destruct (Req_dec c 0) as [->|Nc]; [assert (0 < d * d / p1) by (apply Rdiv_lt_0_compat; nra); lra|]. assert (0 < c * c) by nra. assert (0 < c * c / p0) by (apply Rdiv_lt_0_compat; nra). lra. }
  assert (At : forall sg, sg = 1 \/ sg = -1 -> exists x y, sel x y = sg * r /\ under (hw * hw) m x y).
  { intros sg Hsg. set (u := sg * (hw * hw * c / (p0 * r))). set (v := - (sg * (hw * hw * d / (p1 * r)))). exists (u * cos th - v * sin th), (u * sin th + v * cos th). rewrite Hs. unfold under. rewrite Hq. split.
    - unfold u, v. transitivity (sg * (hw * hw * (c * c / p0 + d * d / p1)) / r); [field; lra|]. rewrite <- Er'. field. lra.
    - right. transitivity (sg * sg * (hw * hw) * (hw * hw * (c * c / p0 + d * d / p1)) / (r * r)); [unfold u, v; field; lra|]. rewrite <- Er'. replace (sg * sg) with 1 by (destruct Hsg; subst; ring). field. lra. }
  split; [destruct (At 1 ltac:(auto)) as (x & y & H); exists x, y; rewrite Rmult_1_l in H; exact H|]. split; [destruct (At (-1) ltac:(auto)) as (x & y & H); exists x, y; replace (-1 * r) with (- r) in H by ring; exact H|].
  intros s (x & y & <- & U). set (u := x * cos th + y * sin th). set (v := y * cos th - x * sin th). assert (T := sin2_cos2 th). unfold Rsqr in T.
  assert (Ex : x = u * cos th - v * sin th). { unfold u, v. transitivity (x * (sin th * sin th + cos th * cos th)); [rewrite T; ring|ring]. } assert (Ey : y = u * sin th + v * cos th). { unfold u, v. transitivity (y * (sin th * sin th + cos th * cos th)); [rewrite T; ring|ring]. }
  clearbody u v. unfold under in U. rewrite Ex, Ey, Hq in U. rewrite Ex, Ey, Hs. rewrite <- (Rabs_right r) by lra. apply Rsqr_le_abs_0. unfold Rsqr. rewrite Er'.
  apply Rle_trans with ((p0 * u * u + p1 * v * v) * (c * c / p0 + d * d / p1)).
  - assert (H : (p0 * u * u + p1 * v * v) * (c * c / p0 + d * d / p1) - (u * c - v * d) * (u * c - v * d) = (p0 * u * d + p1 * v * c) * (p0 * u * d + p1 * v * c) / (p0 * p1)) by (field; lra).
    assert (0 <= (p0 * u * d + p1 * v * c) * (p0 * u * d + p1 * v * c) / (p0 * p1)) by (apply quot_pos; [apply Rle_0_sqr|apply Rmult_lt_0_compat; lra]). lra.
  - apply Rmult_le_compat_r; [|exact U]. assert (0 <= c * c / p0) by (apply quot_pos; nra). assert (0 <= d * d / p1) by (apply quot_pos; nra). lra.
Qed.

Lemma quad2_scale m x y l : quad 2 m (vec2 (l * x) (l * y)) = l * l * quad 2 m (vec2 x y).
Proof. rewrite !quad2. cbn [vec2]. ring. Qed.
(** * The curve of one matrix *)
Definition tiny : R := 1 / 10000000.
Definition shows (n : nat) (o : R) (lim : R * R) (X : R) : Prop :=
  (1 - tiny) * cos (PI / INR n) * X <= snd lim - o <= (1 + tiny) * X /\ (1 - tiny) * cos (PI / INR n) * X <= o - fst lim <= (1 + tiny) * X.
Lemma level : exists s, 0 < s /\ s * s * (hw * hw) = 2 * ln 2 /\ 1 - tiny <= / s <= 1 + tiny.
Proof.
  assert (H := half_width_constant). fold hw in H. apply Rabs_def2 in H. assert (L := ln2_bounds). assert (Ph : 0 < hw) by (unfold hw; lra). set (v := 2 * ln 2) in *. assert (Pv : 138 / 100 < v) by (unfold v; lra). assert (S := sqrt_lt_R0 v ltac:(lra)). assert (Q : sqrt v * sqrt v = v) by (apply sqrt_sqrt; lra).
  exists (sqrt v / hw). split; [apply Rdiv_lt_0_compat; assumption|]. split; [rewrite <- Q at 3; field; lra|]. replace (/ (sqrt v / hw)) with (hw / sqrt v) by (field; lra). unfold tiny in *. split; apply (Rmult_le_reg_r (sqrt v)); try assumption; replace (hw / sqrt v * sqrt v) with hw by (field; lra); nra.
Qed.
Lemma shows_of_spans n o lo hi r s : (2 <= n)%nat -> 0 <= r -> 0 < s -> 1 - tiny <= / s <= 1 + tiny -> spans n o lo hi r -> shows n o (lo, hi) (r * s).
Proof.
  intros Hn Pr Ps Bs [H1 H2]. assert (PP := PI_RGT_0). assert (Pn : 2 <= INR n) by (replace 2 with (INR 2) by (cbn; ring); apply le_INR, Hn). assert (Pc : 0 <= cos (PI / INR n)).
  { apply cos_ge_0; [assert (0 < PI / INR n) by (apply Rdiv_lt_0_compat; lra); lra|]. apply (Rmult_le_reg_r (INR n)); [lra|]. replace (PI / INR n * INR n) with PI by (field; lra). nra. }
  assert (Et : tiny < 1) by (unfold tiny; lra). assert (A : (1 - tiny) * s <= 1). { replace 1 with (/ s * s) at 2 by (field; lra). apply Rmult_le_compat_r; lra. } assert (B : 1 <= (1 + tiny) * s). { replace 1 with (/ s * s) at 1 by (field; lra). apply Rmult_le_compat_r; lra. }
  unfold shows. cbn [fst snd]. set (c := cos (PI / INR n)) in *. assert (C1 : (1 - tiny) * c * (r * s) <= r * c). { replace ((1 - tiny) * c * (r * s)) with ((1 - tiny) * s * (r * c)) by ring. assert (0 <= r * c) by (apply Rmult_le_pos; assumption). nra. } assert (C2 : r <= (1 + tiny) * (r * s)) by nra. lra.
Qed.
Lemma reach_level m (sel : R -> R -> R) r s : (forall l x y, sel (l * x) (l * y) = l * sel x y) -> 0 < s -> s * s * (hw * hw) = 2 * ln 2 ->
  reach (fun v => exists x y, sel x y = v /\ under (hw * hw) m x y) r -> reach (fun v => exists x y, sel x y = v /\ under (2 * ln 2) m x y) (r * s).
Proof.
  intros Hs Ps Es (A & B & C). assert (Up : forall v, (exists x y, sel x y = v /\ under (hw * hw) m x y) -> exists x y, sel x y = v * s /\ under (2 * ln 2) m x y).
  { intros v (x & y & Ev & U). exists (s * x), (s * y). rewrite Hs, Ev. split; [ring|]. unfold under in *. rewrite quad2_scale, <- Es. apply Rmult_le_compat_l; [nra|exact U]. }
  split; [apply Up, A|]. split; [replace (- (r * s)) with (- r * s) by ring; apply Up, B|]. intros v (x & y & Ev & U). assert (H : Rabs (/ s * v) <= r).
  { apply C. exists (/ s * x), (/ s * y). rewrite Hs, Ev. split; [reflexivity|]. unfold under in *. rewrite quad2_scale. apply (Rmult_le_reg_l (s * s)); [nra|]. replace (s * s * (/ s * / s * quad 2 m (vec2 x y))) with (quad 2 m (vec2 x y)) by (field; lra). rewrite Es. exact U. }
  rewrite Rabs_mult, (Rabs_right (/ s)) in H by (apply Rle_ge, Rlt_le, Rinv_0_lt_compat, Ps). replace (Rabs v) with (/ s * Rabs v * s) by (field; lra). apply Rmult_le_compat_r; lra.
Qed.
Lemma curve_shows m o n : (2 <= n)%nat -> sym 2 m -> posdef 2 m -> exists wa wb pts x0 x1 y0 y1 X Y, curve m o (S n) = Some (wa, wb, pts) /\
  np_min (map fst pts) = Ok x0 /\ np_max (map fst pts) = Ok x1 /\ np_min (map snd pts) = Ok y0 /\ np_max (map snd pts) = Ok y1 /\
  reach (fun x => exists y, under (2 * ln 2) m x y) X /\ reach (fun y => exists x, under (2 * ln 2) m x y) Y /\ shows n (fst o) (x0, x1) X /\ shows n (snd o) (y0, y1) Y.
Proof.
  intros Hn Sy P. unfold curve, projection_hwhm. set (th := / 2 * atan2 (2 * m 0%nat 1%nat) (m 0%nat 0%nat - m 1%nat 1%nat)). destruct (rotated m Sy) as (Z1 & Z2 & _). fold th in Z1, Z2.
  assert (Pp := rot_posdef th m P). assert (P0 := posdef_diag _ _ 0 Pp ltac:(lia)). assert (P1 := posdef_diag _ _ 1 Pp ltac:(lia)). assert (Rq := rot_quad th m). set (p := rotate2 th m) in *.
  destruct (Rlt_dec 0 (p 0%nat 0%nat)); [|contradiction]. destruct (Rlt_dec 0 (p 1%nat 1%nat)); [|contradiction]. fold hw. set (a := hw / sqrt (p 0%nat 0%nat)). set (b := hw / sqrt (p 1%nat 1%nat)).
  destruct (ellipse_spans fst a b th o n (cos th) (sin th) ltac:(lia) ltac:(reflexivity)) as (X & x0 & x1 & PX & EX & Ex0 & Ex1 & SX).
  destruct (ellipse_spans snd a b th o n (sin th) (- cos th) ltac:(lia) ltac:(intros; cbn [snd]; ring)) as (Y & y0 & y1 & PY & EY & Ey0 & Ey1 & SY).
  destruct level as (s & Ps & Es & Bs). assert (T := sin2_cos2 th). unfold Rsqr in T.
  assert (Q : forall u v, quad 2 m (vec2 (u * cos th - v * sin th) (u * sin th + v * cos th)) = p 0%nat 0%nat * u * u + p 1%nat 1%nat * v * v) by (intros u v; rewrite Rq, quad2, Z1, Z2; cbn [vec2]; ring).
  assert (RX := reach_rotated m th _ _ (cos th) (sin th) (fun x _ => x) X P0 P1 Q ltac:(reflexivity) PX ltac:(lra) EX).
  assert (RY := reach_rotated m th _ _ (sin th) (- cos th) (fun _ y => y) Y P0 P1 Q ltac:(intros; cbv beta; ring) PY ltac:(lra) EY).
  apply (reach_level m (fun x _ => x) X s ltac:(reflexivity) Ps Es) in RX. apply (reach_level m (fun _ y => y) Y s ltac:(reflexivity) Ps Es) in RY.
  exists (2 * a), (2 * b), (ellipse a b th o (S n)), x0, x1, y0, y1, (X * s), (Y * s). split; [reflexivity|]. repeat (split; [assumption|]). split; [|split; [|split; eapply shows_of_spans; eassumption]].
  - destruct RX as (A & B & C). split; [destruct A as (x & y & <- & U); exists y; exact U|]. split; [destruct B as (x & y & <- & U); exists y; exact U|]. intros x (y & U). apply C. exists x, y. auto.
  - destruct RY as (A & B & C). split; [destruct A as (x & y & <- & U); exists x; exact U|]. split; [destruct B as (x & y & <- & U); exists x; exact U|]. intros y (x & U). apply C. exists x, y. auto.
Qed.

(** * The panels *)
(** What a panel with the curves of a set in the plane shows, which is centred at (ox, oy) and holds the points where the resolution
    function is at least half of its maximum: the limits of the axes reach as far as the set, or less by the distance that comes from
    drawing n + 1 points; the labels print the widths of the frame; and the slice is inside the range of the set. *)
Definition fits (n : nat) (P : panel) (ox oy : R) (body : R -> R -> Prop) (X Y : R) : Prop :=
  reach (fun x => exists y, body x y) X /\ reach (fun y => exists x, body x y) Y /\ shows n ox (p_xlim P) X /\ shows n oy (p_ylim P) Y /\
  stands 3 (p_dx P) (snd (p_xlim P) - fst (p_xlim P)) /\ stands 3 (p_dy P) (snd (p_ylim P) - fst (p_ylim P)) /\
  forall p, In p (p_line P) -> Rabs (fst p - ox) <= (1 + tiny) * X /\ Rabs (snd p - oy) <= (1 + tiny) * Y.
Lemma reach_iff b b' X : (forall x, b x <-> b' x) -> reach b X -> reach b' X.
Proof. intros H (A & B & C). split; [apply H, A|]. split; [apply H, B|]. intros x Hx. apply C, H, Hx. Qed.
Lemma inside (body : R -> R -> Prop) (g : R -> R -> R) X Y dx dy : (forall l x y, g (l * x) (l * y) = l * l * g x y) -> (forall x y, g x y <= 2 * ln 2 -> body x y) -> Rabs (g dx dy - 2 * ln 2) < 1 / 10000000 ->
  reach (fun x => exists y, body x y) X -> reach (fun y => exists x, body x y) Y -> Rabs dx <= (1 + tiny) * X /\ Rabs dy <= (1 + tiny) * Y.
Proof.
  intros Hg Hb On (_ & _ & CX) (_ & _ & CY). apply Rabs_def2 in On. set (l := / (1 + tiny)). assert (L := ln2_bounds). assert (Pt : 0 < 1 + tiny) by (unfold tiny; lra). assert (Pl : 0 < l) by (unfold l; apply Rinv_0_lt_compat; exact Pt).
  assert (B : body (l * dx) (l * dy)). { apply Hb. rewrite Hg. apply (Rmult_le_reg_l ((1 + tiny) * (1 + tiny))); [nra|]. replace ((1 + tiny) * (1 + tiny) * (l * l * g dx dy)) with (g dx dy) by (unfold l; field; lra). unfold tiny in *. nra. }
  assert (A : forall d Z, Rabs (l * d) <= Z -> Rabs d <= (1 + tiny) * Z). { intros d Z H. rewrite Rabs_mult, (Rabs_right l) in H by lra. replace (Rabs d) with ((1 + tiny) * (l * Rabs d)) by (unfold l; field; lra). apply Rmult_le_compat_l; lra. }
  split; apply A; [apply CX; eauto|apply CY; eauto].
Qed.
Lemma plot_fits c k n o pts sl x0 x1 y0 y1 X Y (body : R -> R -> Prop) (g : R -> R -> R) :
  curve_at c k 0 = Ok pts -> curve_at c (k ++ "Slice")%string 0 = Ok sl ->
  np_min (map fst pts) = Ok x0 -> np_max (map fst pts) = Ok x1 -> np_min (map snd pts) = Ok y0 -> np_max (map snd pts) = Ok y1 ->
  (forall l x y, g (l * x) (l * y) = l * l * g x y) -> (forall x y, g x y <= 2 * ln 2 -> body x y) -> (forall p, In p sl -> Rabs (g (fst p - fst o) (snd p - snd o) - 2 * ln 2) < 1 / 10000000) ->
  reach (fun x => exists y, body x y) X -> reach (fun y => exists x, body x y) Y -> shows n (fst o) (x0, x1) X -> shows n (snd o) (y0, y1) Y ->
  exists P, plot_slice c k 0 = Ok P /\ p_fill P = pts /\ p_line P = sl /\ p_energy P = has_W k /\ fits n P (fst o) (snd o) body X Y.
Proof.
  intros E1 E2 A1 A2 A3 A4 Hg Hb On RX RY SX SY. unfold plot_slice. rewrite E1, E2. cbn [bind]. rewrite A1, A2, A3, A4. cbn [bind]. eexists. split; [reflexivity|]. cbn [p_fill p_line p_energy]. repeat (split; [reflexivity|]).
  unfold fits. cbn [p_xlim p_ylim p_dx p_dy p_line fst snd]. repeat (split; [first [assumption|apply fixed_near]|]). intros p I. eapply inside; eauto.
Qed.

Theorem C91_panels : forall a r0 q o1 o2 w n, (2 <= n)%nat -> sym 4 a -> posdef 4 a ->
  let f x y z := quad 4 a (vec4 x y 0 z) in let c := one_point (projections a r0 q o1 o2 w (S n)) in
  (exists P X Y, plot_slice c "QxQy" 0 = Ok P /\ p_energy P = false /\ fits n P (along q o1) (along q o2) (fun x y => exists z, f x y z <= 2 * ln 2) X Y) /\
  (exists P X Y, plot_slice c "QxW" 0 = Ok P /\ p_energy P = true /\ fits n P (along q o1) w (fun x z => exists y, f x y z <= 2 * ln 2) X Y) /\
  (exists P X Y, plot_slice c "QyW" 0 = Ok P /\ p_energy P = true /\ fits n P (along q o2) w (fun y z => exists x, f x y z <= 2 * ln 2) X Y).
Proof.
  intros a r0 q o1 o2 w n Hn Sy Pa f c. set (b := fun i j => a (skip 2 i) (skip 2 j)).
  assert (Pb : posdef 3 b) by (apply posdef_skip; [lia|exact Pa]). assert (Sb : sym 3 b) by (intros i j Li Lj; unfold b; apply Sy; apply skip_bound; lia).
  assert (Q4 : forall x y z, f x y z = quad 3 b (fun i => match i with 0%nat => x | 1%nat => y | _ => z end)).
  { intros x y z. unfold f. rewrite (quad_ext 4 a a (vec4 x y 0 z) (insert 2 0 (fun i => match i with 0%nat => x | 1%nat => y | _ => z end))); auto; [|intros [|[|[|[|i]]]] L; try lia; reflexivity].
    rewrite quad_split by lia. fold b. ring. }
  assert (F0 : forall l x y z, f (l * x) (l * y) (l * z) = l * l * f x y z) by (intros; unfold f, quad, vec4; cbn [sumn]; ring).
  destruct (C35_projections a r0 q o1 o2 w (S n) Sy Pa) as (c1 & c2 & c3 & c4 & c5 & c6 & _ & Ec & _ & H2 & _ & H4 & _ & H6). fold f in H2, H4, H6.
  unfold projections in Ec. fold b in Ec. cbn [map snd] in Ec. injection Ec as K1 K2 K3 K4 K5 K6.
  assert (Ecs : c = [("QxQy"%string, [snd c1]); ("QxQySlice"%string, [snd c2]); ("QxW"%string, [snd c3]); ("QxWSlice"%string, [snd c4]); ("QyW"%string, [snd c5]); ("QyWSlice"%string, [snd c6])]).
  { unfold c, projections. fold b. cbn [one_point flat_map snd fst]. rewrite K1, K2, K3, K4, K5, K6. destruct c1 as [[? ?] ?], c2 as [[? ?] ?], c3 as [[? ?] ?], c4 as [[? ?] ?], c5 as [[? ?] ?], c6 as [[? ?] ?]. reflexivity. }
  assert (SH : forall k o cc, (k <= 2)%nat -> curve' (projected k r0 b) o (S n) = Some cc -> exists x0 x1 y0 y1 X Y,
     np_min (map fst (snd cc)) = Ok x0 /\ np_max (map fst (snd cc)) = Ok x1 /\ np_min (map snd (snd cc)) = Ok y0 /\ np_max (map snd (snd cc)) = Ok y1 /\
     reach (fun x => exists y, exists t, quad 3 b (insert k t (vec2 x y)) <= 2 * ln 2) X /\ reach (fun y => exists x, exists t, quad 3 b (insert k t (vec2 x y)) <= 2 * ln 2) Y /\ shows n (fst o) (x0, x1) X /\ shows n (snd o) (y0, y1) Y).
  { intros k o cc Lk E. destruct (C34_minimum 2 k r0 b Lk Pb) as (r & m & Em & Pm & Sm & M). unfold projected in E. rewrite Em in E. cbn [curve'] in E. destruct (curve_shows m o n Hn (Sm Sb) Pm) as (wa & wb & pts & x0 & x1 & y0 & y1 & X & Y & C & A1 & A2 & A3 & A4 & RX & RY & SX & SY). rewrite C in E. injection E as <-. cbn [snd].
    assert (U : forall x y, under (2 * ln 2) m x y <-> exists t, quad 3 b (insert k t (vec2 x y)) <= 2 * ln 2). { intros x y. unfold under. destruct (M (vec2 x y)) as [Le (t & Et & _)]. split; [intros H; exists t; rewrite Et; exact H|intros (t' & H); specialize (Le t'); lra]. }
    exists x0, x1, y0, y1, X, Y. repeat (split; [assumption|]). split; [|split; [|split; assumption]].
    - revert RX. apply reach_iff. intros x. split; intros (y & H); exists y; apply U, H.
    - revert RY. apply reach_iff. intros y. split; intros (x & H); exists x; apply U, H. }
  split; [|split].
  - destruct (SH 2%nat (along q o1, along q o2) c1 ltac:(lia) K1) as (x0 & x1 & y0 & y1 & X & Y & A1 & A2 & A3 & A4 & RX & RY & SX & SY).
    assert (I2 : forall x y t, quad 3 b (insert 2 t (vec2 x y)) = f x y t) by (intros; rewrite Q4; apply quad_ext; [reflexivity|]; intros [|[|[|i]]] L; try lia; reflexivity).
    destruct (plot_fits c "QxQy" n (along q o1, along q o2) (snd c1) (snd c2) x0 x1 y0 y1 X Y (fun x y => exists z, f x y z <= 2 * ln 2) (fun x y => f x y 0)) as (P & EP & _ & _ & W & F); try assumption; try (rewrite Ecs; reflexivity).
    + intros l x y. rewrite <- F0. rewrite Rmult_0_r. reflexivity.
    + eauto.
    + revert RX. apply reach_iff. intros x. split; intros (y & t & H); exists y, t; [rewrite <- I2|rewrite I2]; exact H.
    + revert RY. apply reach_iff. intros y. split; intros (x & t & H); exists x, t; [rewrite <- I2|rewrite I2]; exact H.
    + exists P, X, Y. auto.
  - destruct (SH 1%nat (along q o1, w) c3 ltac:(lia) K3) as (x0 & x1 & y0 & y1 & X & Y & A1 & A2 & A3 & A4 & RX & RY & SX & SY).
    assert (I2 : forall x y t, quad 3 b (insert 1 t (vec2 x y)) = f x t y) by (intros; rewrite Q4; apply quad_ext; [reflexivity|]; intros [|[|[|i]]] L; try lia; reflexivity).
    destruct (plot_fits c "QxW" n (along q o1, w) (snd c3) (snd c4) x0 x1 y0 y1 X Y (fun x z => exists y, f x y z <= 2 * ln 2) (fun x z => f x 0 z)) as (P & EP & _ & _ & W & F); try assumption; try (rewrite Ecs; reflexivity).
    + intros l x y. rewrite <- F0. rewrite Rmult_0_r. reflexivity.
    + eauto.
    + revert RX. apply reach_iff. intros x. split; intros (y & t & H); exists y, t; [rewrite <- I2|rewrite I2]; exact H.
    + revert RY. apply reach_iff. intros y. split; intros (x & t & H); exists x, t; [rewrite <- I2|rewrite I2]; exact H.
    + exists P, X, Y. auto.
  - destruct (SH 0%nat (along q o2, w) c5 ltac:(lia) K5) as (x0 & x1 & y0 & y1 & X & Y & A1 & A2 & A3 & A4 & RX & RY & SX & SY).
    assert (I2 : forall x y t, quad 3 b (insert 0 t (vec2 x y)) = f t x y) by (intros; rewrite Q4; apply quad_ext; [reflexivity|]; intros [|[|[|i]]] L; try lia; reflexivity).
    destruct (plot_fits c "QyW" n (along q o2, w) (snd c5) (snd c6) x0 x1 y0 y1 X Y (fun y z => exists x, f x y z <= 2 * ln 2) (fun y z => f 0 y z)) as (P & EP & _ & _ & W & F); try assumption; try (rewrite Ecs; reflexivity).
    + intros l x y. rewrite <- F0. rewrite Rmult_0_r. reflexivity.
    + eauto.
    + revert RX. apply reach_iff. intros x. split; intros (y & t & H); exists y, t; [rewrite <- I2|rewrite I2]; exact H.
    + revert RY. apply reach_iff. intros y. split; intros (x & t & H); exists x, t; [rewrite <- I2|rewrite I2]; exact H.
    + exists P, X, Y. auto.
Qed.
Print Assumptions C91_panels.
Example C91_panels_case : (2 <= 35)%nat /\ sym 4 ex4 /\ posdef 4 ex4. Proof. split; [lia|exact C35_projections_ex]. Qed.

(** With the default of 36 points the widths printed are those of the resolution function at half maximum to 0.41 per cent, besides
    rounding to three decimals, and never larger by more than a ten-millionth. *)
Lemma cos_35 : 9959 / 10000 <= (1 - tiny) * cos (PI / INR 35).
Proof.
  assert (B := PI_bounds). replace (INR 35) with 35 by (rewrite INR_IZR_INZ; reflexivity). set (x := PI / 35). assert (X : 0 < x < 898 / 10000) by (unfold x; lra). replace x with (2 * (x / 2)) by field. rewrite cos_2a_sin. assert (S : sin (x / 2) < x / 2) by (apply sin_lt_x; lra). assert (S0 : 0 <= sin (x / 2)) by (apply sin_ge_0; lra). unfold tiny. nra.
Qed.
Theorem C91_printed_widths : forall P ox oy body X Y, fits 35 P ox oy body X Y ->
  let close (z : Z) (w : R) := w * (9959 / 10000) - 1 / 2000 <= IZR z / 1000 <= w * (1 + 1 / 10000000) + 1 / 2000 in close (p_dx P) (2 * X) /\ close (p_dy P) (2 * Y).
Proof.
  intros P ox oy body X Y (RX & RY & SX & SY & Dx & Dy & _) close. assert (C := cos_35).
  assert (G : forall z o lim R b, reach b R -> shows 35 o lim R -> stands 3 z (snd lim - fst lim) -> close z (2 * R)).
  { intros z o lim R b (RA & _ & RC) (S1 & S2) St. assert (PR : 0 <= R) by (specialize (RC R RA); assert (A := Rabs_pos R); lra). unfold stands in St. apply between in St. unfold close. set (k := (1 - tiny) * cos (PI / INR 35)) in *. assert (9959 / 10000 * R <= k * R) by (apply Rmult_le_compat_r; assumption). unfold tiny in *. replace (10 ^ 3) with 1000 in St by (cbn; ring). lra. }
  split; eapply G; eassumption.
Qed.
Print Assumptions C91_printed_widths.

(** A panel that is not among the projections, or a point that has not been calculated, raises. *)
Theorem C91_no_panel : forall c k num, (~ In k (map fst c) -> plot_slice c k num = Err KeyError) /\
  (forall l, (forall k' l', In (k', l') c -> List.length l' = l) -> In k (map fst c) -> (l <= num)%nat -> plot_slice c k num = Err IndexError).
Proof.
  intros c k num. split.
  - intros N. assert (E : of_key k c = Err KeyError). { induction c as [|[k' v] c IH]; [reflexivity|]. cbn [of_key]. destruct (String.eqb_spec k k') as [->|]; [exfalso; apply N; left; reflexivity|]. apply IH. intros H. apply N. right. exact H. } unfold plot_slice, curve_at. rewrite E. reflexivity.
  - intros l A I L. assert (E : exists v, of_key k c = Ok v /\ In (k, v) c). { clear A. induction c as [|[k' v] c IH]; [contradiction|]. cbn [of_key]. destruct (String.eqb_spec k k') as [->|Nk]; [exists v; split; [reflexivity|left; reflexivity]|]. destruct I as [I|I]; [cbn in I; congruence|]. destruct (IH I) as (v' & E & J). exists v'. split; [exact E|right; exact J]. }
    destruct E as (v & E & J). unfold plot_slice, curve_at. rewrite E. cbn [bind]. assert (Z : nth_error v num = None) by (apply nth_error_None; rewrite (A k v J); exact L). rewrite Z. reflexivity.
Qed.
Print Assumptions C91_no_panel.
Example C91_no_panel_case : plot_slice [("QxQy"%string, [[(0, 0)]])] "QxQy" 1 = Err IndexError /\ plot_slice [("QxQy"%string, [[(0, 0)]])] "QxQz" 0 = Err KeyError.
Proof. split; reflexivity. Qed.

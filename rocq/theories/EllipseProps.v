(** Properties of the plotted resolution ellipses (C35) and of the reported widths (C58). *)
From Coq Require Import String List ZArith Reals Lra Lia Bool Psatz.
From Verif Require Import Base MatModel NumBounds MatProps.
Import ListNotations.
Local Open Scope R_scope.

(** C35.  In the frame with origin [o] turned by [phi], point [i] of the curve is (a cos, b sin) of [i] equal steps of a full turn. *)
Lemma nth_ellipse a b phi o npts i : (i < npts)%nat -> nth i (ellipse a b phi o npts) (0, 0) =
  (let t := linspace npts i in (a * cos t * cos phi - b * sin t * sin phi + fst o, a * cos t * sin phi + b * sin t * cos phi + snd o)).
Proof.
  intros L. unfold ellipse. set (f := fun i : nat => _). rewrite (nth_indep _ _ (f 0%nat)) by now rewrite map_length, seq_length. rewrite map_nth, seq_nth by auto. reflexivity.
Qed.
Theorem C35_points : forall a b phi o npts, (2 <= npts)%nat -> let l := ellipse a b phi o npts in length l = npts /\
  (forall i, (i < npts)%nat -> let p := nth i l (0, 0) in let x := fst p - fst o in let y := snd p - snd o in let t := INR i * (2 * PI / INR (npts - 1)) in
     x * cos phi + y * sin phi = a * cos t /\ y * cos phi - x * sin phi = b * sin t) /\
  nth 0 l (0, 0) = nth (npts - 1) l (0, 0).
Proof.
  intros a b phi o npts L. cbv zeta. assert (Pn : 0 < INR (npts - 1)) by (apply lt_0_INR; lia). split; [unfold ellipse; now rewrite map_length, seq_length|]. split.
  - intros i Li. rewrite nth_ellipse by auto. cbv zeta. cbn [fst snd]. unfold linspace. assert (E : Nat.leb npts 1 = false) by (apply Nat.leb_gt; lia). rewrite E.
    replace (INR i * (2 * PI / INR (npts - 1))) with (2 * PI * INR i / INR (npts - 1)) by (field; lra). set (t := 2 * PI * INR i / INR (npts - 1)).
    assert (P := sin2_cos2 phi). unfold Rsqr in P. split.
    + transitivity (a * cos t * (sin phi * sin phi + cos phi * cos phi)); [ring|rewrite P; ring].
    + transitivity (b * sin t * (sin phi * sin phi + cos phi * cos phi)); [ring|rewrite P; ring].
  - rewrite !nth_ellipse by lia. cbv zeta. unfold linspace. assert (E : Nat.leb npts 1 = false) by (apply Nat.leb_gt; lia). rewrite E.
    replace (2 * PI * INR 0 / INR (npts - 1)) with 0 by (simpl; field; lra). replace (2 * PI * INR (npts - 1) / INR (npts - 1)) with (2 * PI) by (field; lra). rewrite cos_0, sin_0, cos_2PI, sin_2PI. reflexivity.
Qed.
Print Assumptions C35_points.
Theorem C35_equation : forall a b phi o npts p, a <> 0 -> b <> 0 -> In p (ellipse a b phi o npts) ->
  let x := fst p - fst o in let y := snd p - snd o in ((x * cos phi + y * sin phi) / a) ^ 2 + ((y * cos phi - x * sin phi) / b) ^ 2 = 1.
Proof.
  intros a b phi o npts p Ha Hb I. cbv zeta. unfold ellipse in I. apply in_map_iff in I. destruct I as (i & <- & _). cbv zeta. cbn [fst snd]. set (t := linspace npts i).
  assert (P := sin2_cos2 phi). assert (T := sin2_cos2 t). unfold Rsqr in P, T.
  replace ((a * cos t * cos phi - b * sin t * sin phi + fst o - fst o) * cos phi + (a * cos t * sin phi + b * sin t * cos phi + snd o - snd o) * sin phi) with (a * cos t * (sin phi * sin phi + cos phi * cos phi)) by ring.
  replace ((a * cos t * sin phi + b * sin t * cos phi + snd o - snd o) * cos phi - (a * cos t * cos phi - b * sin t * sin phi + fst o - fst o) * sin phi) with (b * sin t * (sin phi * sin phi + cos phi * cos phi)) by ring.
  rewrite P. replace (a * cos t * 1 / a) with (cos t) by (field; auto). replace (b * sin t * 1 / b) with (sin t) by (field; auto). lra.
Qed.
Print Assumptions C35_equation.

Lemma atan2_polar y x : let r := sqrt (x * x + y * y) in r * cos (atan2 y x) = x /\ r * sin (atan2 y x) = y.
Proof.
  cbv zeta. assert (Q : 0 <= x * x + y * y) by nra.
  assert (C : forall z, 0 < cos (atan z) /\ sin (atan z) = z * cos (atan z) /\ cos (atan z) * cos (atan z) * (1 + z * z) = 1).
  { intros z. assert (B := atan_bound z). assert (Pc : 0 < cos (atan z)) by (apply cos_gt_0; lra). assert (T : tan (atan z) = z) by apply tan_atan. unfold tan in T.
    assert (Hs : sin (atan z) = z * cos (atan z)) by (rewrite <- T at 2; field; lra). split; auto. split; auto.
    assert (S := sin2_cos2 (atan z)). unfold Rsqr in S. rewrite Hs in S. nra. }
  assert (K : forall z s, s <> 0 -> z = y / s -> s = x -> sqrt (x * x + y * y) * cos (atan z) = Rabs x).
  { intros z s Ns Ez Es. destruct (C z) as (Pc & _ & Sq). rewrite <- (Rabs_right (cos (atan z))) by lra. rewrite <- (Rabs_right (sqrt (x * x + y * y))) by (apply Rle_ge, sqrt_pos). rewrite <- Rabs_mult.
    apply Rsqr_eq_abs_0. unfold Rsqr. replace (sqrt (x * x + y * y) * cos (atan z) * (sqrt (x * x + y * y) * cos (atan z))) with ((sqrt (x * x + y * y) * sqrt (x * x + y * y)) * (cos (atan z) * cos (atan z))) by ring.
    rewrite sqrt_sqrt by auto. subst s. assert (E : y = z * x) by (rewrite Ez; field; auto). replace (x * x + y * y) with (x * x * (1 + z * z)) by (rewrite E; ring). replace (x * x * (1 + z * z) * (cos (atan z) * cos (atan z))) with (x * x * (cos (atan z) * cos (atan z) * (1 + z * z))) by ring. rewrite Sq. ring. }
  unfold atan2. destruct (Rlt_dec 0 x) as [P|P]; [|destruct (Rlt_dec x 0) as [N|N]].
  - assert (X := K (y / x) x ltac:(lra) eq_refl eq_refl). rewrite Rabs_right in X by lra. destruct (C (y / x)) as (_ & Hs & _). rewrite Hs. split; auto.
    replace (sqrt (x * x + y * y) * (y / x * cos (atan (y / x)))) with (y / x * (sqrt (x * x + y * y) * cos (atan (y / x)))) by ring. rewrite X. field. lra.
  - assert (X := K (y / x) x ltac:(lra) eq_refl eq_refl). rewrite Rabs_left in X by lra. destruct (C (y / x)) as (_ & Hs & _).
    assert (Z : sqrt (x * x + y * y) * - cos (atan (y / x)) = x /\ sqrt (x * x + y * y) * - sin (atan (y / x)) = y).
    { split; [lra|]. rewrite Hs. replace (sqrt (x * x + y * y) * - (y / x * cos (atan (y / x)))) with (- (y / x) * (sqrt (x * x + y * y) * cos (atan (y / x)))) by ring. rewrite X. field. lra. }
    destruct (Rle_dec 0 y).
    + rewrite neg_cos, neg_sin. exact Z.
    + replace (atan (y / x) - PI) with (- (PI - atan (y / x))) by ring. rewrite cos_neg, sin_neg. rewrite Rtrigo_facts.cos_pi_minus, Rtrigo_facts.sin_pi_minus. exact Z.
  - assert (x = 0) by lra. subst x. replace (0 * 0 + y * y) with (y * y) by ring. destruct (Rlt_dec 0 y) as [Y|Y]; [|destruct (Rlt_dec y 0) as [Y'|Y']].
    + rewrite cos_PI2, sin_PI2, sqrt_square by lra. split; ring.
    + rewrite cos_neg, sin_neg, cos_PI2, sin_PI2. replace (y * y) with (- y * - y) by ring. rewrite sqrt_square by lra. split; ring.
    + assert (y = 0) by lra. subst y. rewrite Rmult_0_r, sqrt_0. split; ring.
Qed.
Lemma quad2 m x : quad 2 m x = m 0%nat 0%nat * x 0%nat * x 0%nat + (m 0%nat 1%nat + m 1%nat 0%nat) * x 0%nat * x 1%nat + m 1%nat 1%nat * x 1%nat * x 1%nat.
Proof. unfold quad. cbn [sumn]. ring. Qed.
Definition vec2 (a b : R) : nat -> R := fun i => match i with 0%nat => a | _ => b end.
(** The rotation diagonalises the matrix, larger eigenvalue first. *)
Lemma rotated m : sym 2 m -> let p := rotate2 (/ 2 * atan2 (2 * m 0%nat 1%nat) (m 0%nat 0%nat - m 1%nat 1%nat)) m in
  p 0%nat 1%nat = 0 /\ p 1%nat 0%nat = 0 /\ p 1%nat 1%nat <= p 0%nat 0%nat /\ p 0%nat 0%nat + p 1%nat 1%nat = m 0%nat 0%nat + m 1%nat 1%nat /\ p 0%nat 0%nat * p 1%nat 1%nat = m 0%nat 0%nat * m 1%nat 1%nat - m 0%nat 1%nat * m 1%nat 0%nat.
Proof.
  intros Sy. cbv zeta. assert (E : m 1%nat 0%nat = m 0%nat 1%nat) by (symmetry; apply Sy; lia). set (A := atan2 (2 * m 0%nat 1%nat) (m 0%nat 0%nat - m 1%nat 1%nat)).
  destruct (atan2_polar (2 * m 0%nat 1%nat) (m 0%nat 0%nat - m 1%nat 1%nat)) as [Hc Hs]. fold A in Hc, Hs. set (r := sqrt _) in *. assert (Pr : 0 <= r) by apply sqrt_pos.
  set (h := / 2 * A). assert (EA : A = 2 * h) by (unfold h; field). rewrite EA in Hc, Hs. rewrite cos_2a in Hc. rewrite sin_2a in Hs. assert (P := sin2_cos2 h). unfold Rsqr in P. unfold rotate2. cbv iota beta. rewrite E.
  set (p := m 0%nat 0%nat) in *. set (q := m 0%nat 1%nat) in *. set (s := m 1%nat 1%nat) in *. set (c := cos h) in *. set (d := sin h) in *. clearbody p q s c d r. clear EA.
  assert (Z : (q * (c * c - d * d) - (p - s) * (c * d)) * 1 = 0).
  { assert (Hq : q = r * (c * d)) by lra. rewrite Hq. replace (p - s) with (r * (c * c - d * d)) by lra. ring. }
  assert (W : forall p00 p11, p00 = c * (p * c + q * d) + d * (q * c + s * d) -> p11 = - d * (p * - d + q * c) + c * (q * - d + s * c) -> p11 <= p00).
  { intros p00 p11 -> ->. assert (Hq : 2 * q = r * (2 * d * c)) by lra. assert (Hp : p - s = r * (c * c - d * d)) by lra.
    assert (D : c * (p * c + q * d) + d * (q * c + s * d) - (- d * (p * - d + q * c) + c * (q * - d + s * c)) = r * ((c * c - d * d) * (c * c - d * d) + 2 * d * c * (2 * d * c))).
    { replace (c * (p * c + q * d) + d * (q * c + s * d) - (- d * (p * - d + q * c) + c * (q * - d + s * c))) with ((p - s) * (c * c - d * d) + 2 * q * (2 * d * c)) by ring. rewrite Hp, Hq. ring. }
    assert (0 <= r * ((c * c - d * d) * (c * c - d * d) + 2 * d * c * (2 * d * c))) by (apply Rmult_le_pos; auto; nra). lra. }
  split; [lra|]. split; [lra|]. split; [apply W; reflexivity|]. split.
  - replace (p + s) with ((p + s) * (d * d + c * c)) by (rewrite P; ring). ring.
  - set (X := q * (c * c - d * d) - (p - s) * (c * d)) in *. assert (X0 : X = 0) by lra.
    replace (p * s - q * q) with ((p * s - q * q) * ((d * d + c * c) * (d * d + c * c)) + X * X) by (rewrite P, X0; ring). unfold X. ring.
Qed.
Lemma rot_quad th m u v : quad 2 m (vec2 (u * cos th - v * sin th) (u * sin th + v * cos th)) = quad 2 (rotate2 th m) (vec2 u v).
Proof. rewrite !quad2. unfold vec2, rotate2. cbv iota beta. ring. Qed.
Lemma rot_posdef th m : posdef 2 m -> posdef 2 (rotate2 th m).
Proof.
  intros P x (i & Li & Ni). assert (E : quad 2 (rotate2 th m) x = quad 2 (rotate2 th m) (vec2 (x 0%nat) (x 1%nat))) by (apply quad_ext; auto; intros [|[|k]]; try lia; reflexivity). rewrite E, <- rot_quad. apply P.
  set (u := x 0%nat). set (v := x 1%nat). assert (N : u <> 0 \/ v <> 0) by (destruct i as [|[|k]]; [now left|now right|lia]).
  assert (T := sin2_cos2 th). unfold Rsqr in T. destruct (Req_dec (u * cos th - v * sin th) 0) as [A|A]; [|exists 0%nat; split; [lia|exact A]].
  exists 1%nat. split; [lia|]. cbn. intros B. assert (u * u + v * v = 0).
  { replace (u * u + v * v) with ((u * u + v * v) * (sin th * sin th + cos th * cos th)) by (rewrite T; ring). replace ((u * u + v * v) * (sin th * sin th + cos th * cos th)) with ((u * cos th - v * sin th) * (u * cos th - v * sin th) + (u * sin th + v * cos th) * (u * sin th + v * cos th)) by ring. rewrite A, B. ring. }
  destruct N; nra.
Qed.
Lemma half_width_constant : Rabs (117741 / 100000 * (117741 / 100000) - 2 * ln 2) < 1 / 10000000.
Proof. assert (L := ln2_bounds). apply Rabs_def1; lra. Qed.

(** C35.  For a positive definite symmetric matrix the curve exists, each of its points is on the half-maximum contour
    (to 1e-7), and the two full widths are those along the principal axes, the narrower first. *)
Theorem C35_contour : forall m o npts, sym 2 m -> posdef 2 m -> exists wa wb pts, curve m o npts = Some (wa, wb, pts) /\
  (forall p, In p pts -> Rabs (quad 2 m (vec2 (fst p - fst o) (snd p - snd o)) - 2 * ln 2) < 1 / 10000000) /\
  0 < wa <= wb /\ exists l1 l2, l1 + l2 = m 0%nat 0%nat + m 1%nat 1%nat /\ l1 * l2 = m 0%nat 0%nat * m 1%nat 1%nat - m 0%nat 1%nat * m 1%nat 0%nat /\
    Rabs (l1 * wa ^ 2 - 8 * ln 2) < 1 / 1000000 /\ Rabs (l2 * wb ^ 2 - 8 * ln 2) < 1 / 1000000.
Proof.
  intros m o npts Sy P. unfold curve, projection_hwhm. set (th := / 2 * atan2 (2 * m 0%nat 1%nat) (m 0%nat 0%nat - m 1%nat 1%nat)). destruct (rotated m Sy) as (Z1 & Z2 & Le & Tr & De). fold th in Z1, Z2, Le, Tr, De.
  assert (Pp := rot_posdef th m P). assert (P0 := posdef_diag _ _ 0 Pp ltac:(lia)). assert (P1 := posdef_diag _ _ 1 Pp ltac:(lia)). set (p := rotate2 th m) in *.
  destruct (Rlt_dec 0 (p 0%nat 0%nat)); [|contradiction]. destruct (Rlt_dec 0 (p 1%nat 1%nat)); [|contradiction].
  assert (S0 := sqrt_lt_R0 _ P0). assert (S1 := sqrt_lt_R0 _ P1). assert (Q0 : sqrt (p 0%nat 0%nat) * sqrt (p 0%nat 0%nat) = p 0%nat 0%nat) by (apply sqrt_sqrt; lra). assert (Q1 : sqrt (p 1%nat 1%nat) * sqrt (p 1%nat 1%nat) = p 1%nat 1%nat) by (apply sqrt_sqrt; lra).
  assert (HW := half_width_constant). set (k := 117741 / 100000) in *. assert (Pk : 0 < k) by (unfold k; lra).
  eexists _, _, _. split; [reflexivity|]. split; [|split].
  - intros q I. unfold ellipse in I. apply in_map_iff in I. destruct I as (i & <- & _). cbv zeta. cbn [fst snd]. set (t := linspace npts i). set (a := k / sqrt (p 0%nat 0%nat)). set (b := k / sqrt (p 1%nat 1%nat)).
    replace (a * cos t * cos th - b * sin t * sin th + fst o - fst o) with ((a * cos t) * cos th - (b * sin t) * sin th) by ring. replace (a * cos t * sin th + b * sin t * cos th + snd o - snd o) with ((a * cos t) * sin th + (b * sin t) * cos th) by ring.
    rewrite rot_quad. fold p. rewrite quad2, Z1, Z2. cbn [vec2].
    replace (p 0%nat 0%nat * (a * cos t) * (a * cos t) + (0 + 0) * (a * cos t) * (b * sin t) + p 1%nat 1%nat * (b * sin t) * (b * sin t)) with (k * k).
    + exact HW.
    + rewrite <- Q0 at 1. rewrite <- Q1 at 1. unfold a, b. assert (T := sin2_cos2 t). unfold Rsqr in T. replace (k * k) with (k * k * (sin t * sin t + cos t * cos t)) by (rewrite T; ring). field. split; lra.
  - split; [apply Rmult_lt_0_compat; [lra|apply Rdiv_lt_0_compat; auto]|]. apply Rmult_le_compat_l; [lra|]. unfold Rdiv. apply Rmult_le_compat_l; [lra|]. apply Rinv_le_contravar; auto. apply sqrt_le_1; lra.
  - exists (p 0%nat 0%nat), (p 1%nat 1%nat). split; auto. split; auto.
    assert (X : forall z, 0 < z -> z * (2 * (k / sqrt z)) ^ 2 = 4 * (k * k)) by (intros z Pz; assert (Sz := sqrt_lt_R0 _ Pz); assert (Qz : sqrt z * sqrt z = z) by (apply sqrt_sqrt; lra); rewrite <- Qz at 1; field; lra).
    rewrite !X by auto. apply Rabs_def2 in HW. split; apply Rabs_def1; lra.
Qed.
Print Assumptions C35_contour.
Definition ex2 : mat := fun i j => match i, j with 0%nat, 0%nat => 2 | 0%nat, _ => 1 | _, 0%nat => 1 | _, _ => 3 end.
Example C35_ex : sym 2 ex2 /\ posdef 2 ex2.
Proof. split; [intros [|[|i]] [|[|j]] Li Lj; try lia; reflexivity|]. intros x (i & Li & Ni). rewrite quad2. unfold ex2. assert (S := pow2_ge_0 (x 0%nat + x 1%nat)). assert (A := pow2_ge_0 (x 0%nat)). assert (B := pow2_ge_0 (x 1%nat)). destruct i as [|[|i]]; try lia; apply Rsqr_pos_lt in Ni; unfold Rsqr in Ni; nra. Qed.

(** C35.  The six curves of calc_projections for a positive definite matrix in (x, y, z, w). *)
Definition vec4 (a b c d : R) : nat -> R := fun i => match i with 0%nat => a | 1%nat => b | 2%nat => c | _ => d end.
Definition on_contour (v : R) : Prop := Rabs (v - 2 * ln 2) < 1 / 10000000.
(** (u, v) is on the contour of the section / of the shadow of the three-dimensional form at z = 0. *)
Definition shadow (f : R -> R) : Prop := exists s, on_contour (f s) /\ forall t, f s <= f t.
Lemma posdef_skip n k m : (k <= n)%nat -> posdef (S n) m -> posdef n (fun i j => m (skip k i) (skip k j)).
Proof.
  intros L P x (i & Li & Ni). assert (E := quad_split n k m x 0 L). replace (m k k * 0 ^ 2) with 0 in E by ring. rewrite Rmult_0_l, !Rplus_0_l in E. rewrite <- E. apply P. exists (skip k i). split; [apply skip_bound; lia|]. now rewrite insert_skip.
Qed.
Theorem C35_projections : forall a r0 q o1 o2 w npts, sym 4 a -> posdef 4 a -> let f x y z := quad 4 a (vec4 x y 0 z) in
  exists c1 c2 c3 c4 c5 c6, map fst (projections a r0 q o1 o2 w npts) = ["QxQy"; "QxQySlice"; "QxW"; "QxWSlice"; "QyW"; "QyWSlice"]%string /\
  map snd (projections a r0 q o1 o2 w npts) = [Some c1; Some c2; Some c3; Some c4; Some c5; Some c6] /\
  (forall p, In p (snd c1) -> shadow (fun z => f (fst p - along q o1) (snd p - along q o2) z)) /\
  (forall p, In p (snd c2) -> on_contour (f (fst p - along q o1) (snd p - along q o2) 0)) /\
  (forall p, In p (snd c3) -> shadow (fun y => f (fst p - along q o1) y (snd p - w))) /\
  (forall p, In p (snd c4) -> on_contour (f (fst p - along q o1) 0 (snd p - w))) /\
  (forall p, In p (snd c5) -> shadow (fun x => f x (fst p - along q o2) (snd p - w))) /\
  (forall p, In p (snd c6) -> on_contour (f 0 (fst p - along q o2) (snd p - w))).
Proof.
  intros a r0 q o1 o2 w npts Sy P f. set (b := fun i j => a (skip 2 i) (skip 2 j)).
  assert (Pb : posdef 3 b) by (apply posdef_skip; [lia|exact P]). assert (Sb : sym 3 b) by (intros i j Li Lj; unfold b; apply Sy; apply skip_bound; lia).
  assert (Q4 : forall x y z, f x y z = quad 3 b (fun i => match i with 0%nat => x | 1%nat => y | _ => z end)).
  { intros x y z. unfold f. rewrite (quad_ext 4 a a (vec4 x y 0 z) (insert 2 0 (fun i => match i with 0%nat => x | 1%nat => y | _ => z end))); auto; [|intros [|[|[|[|i]]]] L; try lia; reflexivity].
    rewrite quad_split by lia. fold b. ring. }
  assert (PR : forall k o, (k <= 2)%nat -> exists c, curve' (projected k r0 b) o npts = Some c /\ forall p, In p (snd c) -> shadow (fun t => quad 3 b (insert k t (vec2 (fst p - fst o) (snd p - snd o))))).
  { intros k o Lk. destruct (C34_minimum 2 k r0 b Lk Pb) as (r & m & E & Pm & Sm & M). unfold projected. rewrite E. cbn [curve']. destruct (C35_contour m o npts (Sm Sb) Pm) as (wa & wb & pts & C & On & _). rewrite C.
    exists (wa, wb, pts). split; auto. cbn [snd]. intros p I. specialize (On p I). destruct (M (vec2 (fst p - fst o) (snd p - snd o))) as [Le (t & Et & _)]. exists t. rewrite Et. split; [exact On|exact Le]. }
  assert (SL : forall i j o, (i < j)%nat -> (j < 4)%nat -> exists c, curve (pick2 a i j) o npts = Some c /\ forall p, In p (snd c) -> on_contour (quad 4 a (fun k => if Nat.eqb k i then fst p - fst o else if Nat.eqb k j then snd p - snd o else 0))).
  { intros i j o Lij Lj. assert (Qp : forall x, quad 2 (pick2 a i j) x = quad 4 a (fun k => if Nat.eqb k i then x 0%nat else if Nat.eqb k j then x 1%nat else 0)).
    { intros x. rewrite quad2. unfold pick2, quad. destruct i as [|[|[|i]]], j as [|[|[|[|j]]]]; try lia; cbn [sumn Nat.eqb]; ring. }
    assert (P2 : posdef 2 (pick2 a i j)). { intros x (l & Ll & Nl). rewrite Qp. apply P. destruct l as [|[|l]]; [exists i|exists j|lia]; (split; [lia|]); [now rewrite Nat.eqb_refl|]. destruct (Nat.eqb_spec j i); [lia|]. now rewrite Nat.eqb_refl. }
    assert (S2 : sym 2 (pick2 a i j)). { intros x y Lx Ly. unfold pick2. apply Sy; [destruct x|destruct y]; lia. }
    destruct (C35_contour (pick2 a i j) o npts S2 P2) as (wa & wb & pts & C & On & _). rewrite C. exists (wa, wb, pts). split; auto. cbn [snd]. intros p I. specialize (On p I). rewrite Qp in On. exact On. }
  destruct (PR 2%nat (along q o1, along q o2) ltac:(lia)) as (c1 & E1 & H1). destruct (SL 0%nat 1%nat (along q o1, along q o2) ltac:(lia) ltac:(lia)) as (c2 & E2 & H2).
  destruct (PR 1%nat (along q o1, w) ltac:(lia)) as (c3 & E3 & H3). destruct (SL 0%nat 3%nat (along q o1, w) ltac:(lia) ltac:(lia)) as (c4 & E4 & H4).
  destruct (PR 0%nat (along q o2, w) ltac:(lia)) as (c5 & E5 & H5). destruct (SL 1%nat 3%nat (along q o2, w) ltac:(lia) ltac:(lia)) as (c6 & E6 & H6).
  exists c1, c2, c3, c4, c5, c6. split; [reflexivity|]. split; [unfold projections; fold b; cbn [map snd]; rewrite E1, E2, E3, E4, E5, E6; reflexivity|].
  assert (SH : forall g h, (forall t : R, g t = h t) -> shadow g -> shadow h) by (intros g h E (s & O & M); exists s; rewrite <- E; split; auto; intros t; rewrite <- E; apply M).
  split; [|split; [|split; [|split; [|split]]]]; intros p I.
  - apply (SH _ _ (fun t => eq_sym (eq_trans (Q4 _ _ _) (quad_ext 3 b b _ (insert 2 t (vec2 (fst p - along q o1) (snd p - along q o2))) (fun _ _ _ _ => eq_refl) ltac:(intros [|[|[|i]]] L; try lia; reflexivity)))) (H1 p I)).
  - specialize (H2 p I). unfold f. rewrite (quad_ext 4 a a _ (fun k => if Nat.eqb k 0 then fst p - along q o1 else if Nat.eqb k 1 then snd p - along q o2 else 0)); auto. intros [|[|[|[|i]]]] L; try lia; reflexivity.
  - apply (SH _ _ (fun t => eq_sym (eq_trans (Q4 _ _ _) (quad_ext 3 b b _ (insert 1 t (vec2 (fst p - along q o1) (snd p - w))) (fun _ _ _ _ => eq_refl) ltac:(intros [|[|[|i]]] L; try lia; reflexivity)))) (H3 p I)).
  - specialize (H4 p I). unfold f. rewrite (quad_ext 4 a a _ (fun k => if Nat.eqb k 0 then fst p - along q o1 else if Nat.eqb k 3 then snd p - w else 0)); auto. intros [|[|[|[|i]]]] L; try lia; reflexivity.
  - apply (SH _ _ (fun t => eq_sym (eq_trans (Q4 _ _ _) (quad_ext 3 b b _ (insert 0 t (vec2 (fst p - along q o2) (snd p - w))) (fun _ _ _ _ => eq_refl) ltac:(intros [|[|[|i]]] L; try lia; reflexivity)))) (H5 p I)).
  - specialize (H6 p I). unfold f. rewrite (quad_ext 4 a a _ (fun k => if Nat.eqb k 1 then fst p - along q o2 else if Nat.eqb k 3 then snd p - w else 0)); auto. intros [|[|[|[|i]]]] L; try lia; reflexivity.
Qed.
Print Assumptions C35_projections.
(** The six curves for the point x * orient1 + y * orient2, when the index triples are at right angles, are drawn around (x, y). *)
Lemma along_is x y a1 a2 a3 b1 b2 b3 : a1 * b1 + a2 * b2 + a3 * b3 = 0 -> (a1, a2, a3) <> (0, 0, 0) -> (b1, b2, b3) <> (0, 0, 0) ->
  let q := (x * a1 + y * b1, x * a2 + y * b2, x * a3 + y * b3) in along q (a1, a2, a3) = x /\ along q (b1, b2, b3) = y.
Proof.
  intros O A B q. assert (N : forall u v w, (u, v, w) <> (0, 0, 0) -> u * u + v * v + w * w <> 0).
  { intros u v w H E. apply H. assert (U := pow2_ge_0 u). assert (V := pow2_ge_0 v). assert (W := pow2_ge_0 w). cbn [pow] in *. repeat f_equal; apply Rsqr_eq_0; unfold Rsqr; lra. }
  specialize (N _ _ _ A) as NA. specialize (N _ _ _ B) as NB. unfold along, q, dot3. split.
  - replace ((x * a1 + y * b1) * a1 + (x * a2 + y * b2) * a2 + (x * a3 + y * b3) * a3) with (x * (a1 * a1 + a2 * a2 + a3 * a3) + y * (a1 * b1 + a2 * b2 + a3 * b3)) by ring. rewrite O. field. exact NA.
  - replace ((x * a1 + y * b1) * b1 + (x * a2 + y * b2) * b2 + (x * a3 + y * b3) * b3) with (x * (a1 * b1 + a2 * b2 + a3 * b3) + y * (b1 * b1 + b2 * b2 + b3 * b3)) by ring. rewrite O. field. exact NB.
Qed.
Theorem C35_centre : forall a r0 x y a1 a2 a3 b1 b2 b3 w npts, sym 4 a -> posdef 4 a -> a1 * b1 + a2 * b2 + a3 * b3 = 0 -> (a1, a2, a3) <> (0, 0, 0) -> (b1, b2, b3) <> (0, 0, 0) ->
  let f x y z := quad 4 a (vec4 x y 0 z) in let q := (x * a1 + y * b1, x * a2 + y * b2, x * a3 + y * b3) in
  exists c1 c2 c3 c4 c5 c6, map snd (projections a r0 q (a1, a2, a3) (b1, b2, b3) w npts) = [Some c1; Some c2; Some c3; Some c4; Some c5; Some c6] /\
  (forall p, In p (snd c1) -> shadow (fun z => f (fst p - x) (snd p - y) z)) /\ (forall p, In p (snd c2) -> on_contour (f (fst p - x) (snd p - y) 0)) /\
  (forall p, In p (snd c3) -> shadow (fun y => f (fst p - x) y (snd p - w))) /\ (forall p, In p (snd c4) -> on_contour (f (fst p - x) 0 (snd p - w))) /\
  (forall p, In p (snd c5) -> shadow (fun x => f x (fst p - y) (snd p - w))) /\ (forall p, In p (snd c6) -> on_contour (f 0 (fst p - y) (snd p - w))).
Proof.
  intros a r0 x y a1 a2 a3 b1 b2 b3 w npts Sy P O A B f q. destruct (along_is x y a1 a2 a3 b1 b2 b3 O A B) as [X Y]. fold q in X, Y.
  destruct (C35_projections a r0 q (a1, a2, a3) (b1, b2, b3) w npts Sy P) as (c1 & c2 & c3 & c4 & c5 & c6 & _ & E & H). fold f in H. rewrite X, Y in H. exists c1, c2, c3, c4, c5, c6. split; [exact E|exact H].
Qed.
Print Assumptions C35_centre.
(** C35.  When they are not at right angles the curves are drawn around another point: with orient1 = (1, 1, 0) and orient2 = (1, 0, 0) the point
    (2, 1, 0) = orient1 + orient2 is drawn around (3/2, 2). *)
Theorem C35_centre_refuted : exists o1 o2 q, o1 = (1, 1, 0) /\ o2 = (1, 0, 0) /\ q = (2, 1, 0) /\ forall a r0 w npts, sym 4 a -> posdef 4 a ->
  exists c, In ("QxQySlice"%string, Some c) (projections a r0 q o1 o2 w npts) /\ forall p, In p (snd c) -> on_contour (quad 4 a (vec4 (fst p - 3 / 2) (snd p - 2) 0 0)).
Proof.
  exists (1, 1, 0), (1, 0, 0), (2, 1, 0). split; [reflexivity|]. split; [reflexivity|]. split; [reflexivity|]. intros a r0 w npts Sy P.
  destruct (C35_projections a r0 (2, 1, 0) (1, 1, 0) (1, 0, 0) w npts Sy P) as (c1 & c2 & c3 & c4 & c5 & c6 & N & E & _ & H & _). exists c2. split.
  - destruct (projections a r0 (2, 1, 0) (1, 1, 0) (1, 0, 0) w npts) as [|[n1 d1] [|[n2 d2] l]]; try discriminate. cbn in N, E. injection N as _ -> _. injection E as _ -> _. right. left. reflexivity.
  - intros p I. specialize (H p I). assert (X : along (2, 1, 0) (1, 1, 0) = 3 / 2) by (unfold along, dot3; field). assert (Y : along (2, 1, 0) (1, 0, 0) = 2) by (unfold along, dot3; field). rewrite X, Y in H. exact H.
Qed.
Print Assumptions C35_centre_refuted.
Definition ex4 : mat := fun i j => if Nat.eqb i j then 2 else 1.
Lemma ex4_posdef : posdef 4 ex4.
Proof.
  intros x (i & Li & Ni). unfold quad, ex4. cbn [sumn Nat.eqb].
  assert (X : x 0%nat * x 0%nat + x 1%nat * x 1%nat + x 2%nat * x 2%nat + x 3%nat * x 3%nat > 0). { destruct i as [|[|[|[|i]]]]; try lia; nra. }
  assert (Y := pow2_ge_0 (x 0%nat + x 1%nat + x 2%nat + x 3%nat)). cbn [pow] in Y. lra.
Qed.
Example C35_projections_ex : sym 4 ex4 /\ posdef 4 ex4.
Proof. split; [intros i j _ _; unfold ex4; now rewrite Nat.eqb_sym|apply ex4_posdef]. Qed.
Example C35_centre_ex : sym 4 ex4 /\ posdef 4 ex4 /\ 1 * 1 + 1 * -1 + 0 * 0 = 0 /\ (1, 1, 0) <> (0, 0, 0) /\ (1, -1, 0) <> (0, 0, 0).
Proof. split; [apply C35_projections_ex|]. split; [apply ex4_posdef|]. split; [ring|]. split; intros H; injection H; lra. Qed.
(** C35.  The vertical direction is cut at z = 0, not integrated: with a correlation between z and w the plotted
    shadow is strictly inside the shadow of the full ellipsoid. *)
Theorem C35_vertical_refuted : exists a x y, sym 4 a /\ posdef 4 a /\ (forall z w, quad 4 a (vec4 x y z w) >= 4 / 3) /\ (exists z w, quad 4 a (vec4 x y z w) = 4 / 3) /\ (forall w, quad 4 a (vec4 x y 0 w) >= 3 / 2).
Proof.
  exists ex4, 1, 0. split; [apply C35_projections_ex|]. split; [apply ex4_posdef|].
  assert (E : forall z w, quad 4 ex4 (vec4 1 0 z w) = 2 + 2 * z * z + 2 * w * w + 2 * z + 2 * w + 2 * z * w) by (intros; unfold quad, ex4, vec4; cbn [sumn Nat.eqb]; ring).
  split; [|split].
  - intros z w. rewrite E. assert (A := pow2_ge_0 (z + 1 / 3)). assert (B := pow2_ge_0 (w + 1 / 3)). assert (C := pow2_ge_0 (z + w + 2 / 3)). nra.
  - exists (-1 / 3), (-1 / 3). rewrite E. lra.
  - intros w. rewrite E. assert (A := pow2_ge_0 (w + 1 / 2)). nra.
Qed.
Print Assumptions C35_vertical_refuted.

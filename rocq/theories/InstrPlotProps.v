(** Theorems about the pictures of an instrument and of its resolution (C84, C85, C86). *)
From Coq Require Import Reals List ZArith Bool Arith Lra Lia.
From Verif Require Import Base MatModel InstrPlotModel.
Import ListNotations.
Local Open Scope R_scope.

(** ** C84: the layout *)

Definition vec (p q : R * R) : R * R := (fst q - fst p, snd q - snd p).
Definition dot (v w : R * R) : R := fst v * fst w + snd v * snd w.
Definition cross (v w : R * R) : R := fst v * snd w - snd v * fst w.
Definition deg (a : R) : R := a * (PI / 180).

(** Seen from above, the beam leaves the source along y; its sections are as long as the arms, and it turns to the left by A2 at the
    monochromator, A4 at the sample and A6 at the analyzer. *)
Theorem C84_layout_follows_angles : forall angles d0 d1 d2 d3 more, exists src mono smp ana det,
  layout angles (d0 :: d1 :: d2 :: d3 :: more) = Ok [src; mono; smp; ana; det] /\
  src = (0, 0) /\ mono = (0, d0) /\
  let v1 := vec src mono in let v2 := vec mono smp in let v3 := vec smp ana in let v4 := vec ana det in
  dot v1 v1 = d0 ^ 2 /\ dot v2 v2 = d1 ^ 2 /\ dot v3 v3 = d2 ^ 2 /\ dot v4 v4 = d3 ^ 2 /\
  dot v1 v2 = d0 * d1 * cos (deg (nth 1 angles 0)) /\ cross v1 v2 = d0 * d1 * sin (deg (nth 1 angles 0)) /\
  dot v2 v3 = d1 * d2 * cos (deg (nth 3 angles 0)) /\ cross v2 v3 = d1 * d2 * sin (deg (nth 3 angles 0)) /\
  dot v3 v4 = d2 * d3 * cos (deg (nth 5 angles 0)) /\ cross v3 v4 = d2 * d3 * sin (deg (nth 5 angles 0)).
Proof.
  intros. do 5 eexists. split; [unfold layout, walk; cbn [map fst]; reflexivity|].
  set (a := nth 1 angles 0). set (b := nth 3 angles 0). set (c := nth 5 angles 0).
  assert (Hr : forall x, rad x = - deg x) by reflexivity. rewrite !Hr.
  set (A := deg a). set (B := deg b). set (G := deg c).
  assert (H0 : 0 + 0 = 0) by lra. rewrite !H0, sin_0, cos_0.
  replace (0 + - A) with (- A) by lra.
  assert (Hsq : forall t, cos t * cos t = 1 - sin t * sin t) by (intros t; pose proof (sin2_cos2 t) as E; unfold Rsqr in E; lra).
  assert (Hd : forall t u, sin t * sin (t + - u) + cos t * cos (t + - u) = cos u) by (intros t u; rewrite <- (cos_minus t (t + - u)) || idtac; replace u with (t - (t + - u)) at 3 by lra; rewrite cos_minus; lra).
  assert (Hc : forall t u, sin t * cos (t + - u) - cos t * sin (t + - u) = sin u) by (intros t u; replace u with (t - (t + - u)) at 3 by lra; rewrite sin_minus; lra).
  split; [reflexivity|]. split; [f_equal; lra|]. cbn zeta. unfold dot, cross, vec. cbn [fst snd].
  set (t1 := - A). set (t2 := t1 + - B). set (t3 := t2 + - G).
  pose proof (Hsq t1). pose proof (Hsq t2). pose proof (Hsq t3).
  pose proof (Hd t1 B) as D1. pose proof (Hc t1 B) as C1. fold t2 in D1, C1. pose proof (Hd t2 G) as D2. pose proof (Hc t2 G) as C2. fold t3 in D2, C2.
  assert (E1 : cos t1 = cos A) by (unfold t1; apply cos_neg). assert (E2 : sin t1 = - sin A) by (unfold t1; apply sin_neg).
  clearbody t1 t2 t3. rewrite <- E1, <- D1, <- C1, <- D2, <- C2. replace (sin A) with (- sin t1) by lra. repeat split; try ring; nra.
Qed.
Print Assumptions C84_layout_follows_angles.
Example C84_layout_example : layout [0; 90; 0; 90; 0; 90] [2; 1; 1; 1] = Ok [(0, 0); (0, 2); (-1, 2); (-1, 1); (0, 1)].
Proof.
  destruct (C84_layout_follows_angles [0; 90; 0; 90; 0; 90] 2 1 1 1 []) as (src & mono & smp & ana & det & H & -> & -> & H1). rewrite H.
  cbn zeta in H1. cbn [nth] in H1. destruct H1 as (_ & _ & _ & _ & D12 & C12 & D23 & C23 & D34 & C34).
  assert (E : deg 90 = PI / 2) by (unfold deg; lra). rewrite E, sin_PI2, cos_PI2 in *. destruct smp as [sx sy], ana as [ax ay], det as [tx ty].
  unfold dot, cross, vec in *. cbn [fst snd] in *. assert (sy = 2) by lra. assert (sx = -1) by lra. subst sx sy. assert (ax = -1) by lra. assert (ay = 1) by lra. subst ax ay.
  assert (ty = 1) by lra. assert (tx = 0) by lra. subst. reflexivity.
Qed.
(** Fewer than four arms: IndexError. *)
Theorem C84_four_arms_needed : forall angles arms, (List.length arms < 4)%nat -> layout angles arms = Err IndexError.
Proof. intros angles arms H. destruct arms as [|a [|b [|c [|d l]]]]; cbn in *; try reflexivity; lia. Qed.
Print Assumptions C84_four_arms_needed.

(** A crystal of width [w] at the angle [a] is drawn with the width [w sqrt (1 - cos^4 a)], the right one only across the y axis. *)
Theorem C84_crystal_width : forall w a p, let v := vec (fst (crystal w a p)) (snd (crystal w a p)) in
  dot v v = w ^ 2 * (1 - cos (deg a) ^ 4) /\ (w <> 0 -> (dot v v = w ^ 2 <-> cos (deg a) = 0)).
Proof.
  intros w a [x y]. cbn zeta. unfold crystal, dot, vec, rad. cbn [fst snd]. fold (deg a). rewrite cos_neg, sin_neg.
  set (s := sin (deg a)). set (c := cos (deg a)). assert (H : s * s = 1 - c * c) by (pose proof (sin2_cos2 (deg a)) as E; unfold Rsqr in E; fold s c in E; lra).
  assert (E : forall x y, (w / 2 * - s + x - (- (w / 2) * - s + x)) * (w / 2 * - s + x - (- (w / 2) * - s + x)) + (w / 2 * - s * c + y - (- (w / 2) * - s * c + y)) * (w / 2 * - s * c + y - (- (w / 2) * - s * c + y)) = w ^ 2 * (1 - c ^ 4)).
  { intros. transitivity (w ^ 2 * ((s * s) * (1 + c * c))); [field|]. rewrite H. ring. }
  rewrite E. split; [reflexivity|]. intros Hw. split.
  - intros Hv. assert (Hz : w ^ 2 * c ^ 4 = 0) by lra. apply Rmult_integral in Hz. destruct Hz as [Hz|Hz]; [exfalso; revert Hz; apply pow_nonzero; exact Hw|].
    destruct (Req_dec c 0) as [|Hn]; [assumption|]. exfalso. revert Hz. apply pow_nonzero. exact Hn.
  - intros ->. ring.
Qed.
Print Assumptions C84_crystal_width.
Example C84_crystal_example : let v := vec (fst (crystal 2 45 (0, 0))) (snd (crystal 2 45 (0, 0))) in dot v v = 3.
Proof.
  cbn zeta. rewrite (proj1 (C84_crystal_width 2 45 (0, 0))). replace (deg 45) with (PI / 4) by (unfold deg; lra). rewrite cos_PI4.
  assert (H : sqrt 2 * sqrt 2 = 2) by (apply sqrt_sqrt; lra). assert (Hn : sqrt 2 <> 0) by (intros E; rewrite E in H; lra).
  replace ((1 / sqrt 2) ^ 4) with (1 / ((sqrt 2 * sqrt 2) * (sqrt 2 * sqrt 2))) by (field; exact Hn). rewrite H. lra.
Qed.

(** ** C85: the ellipsoid *)

(** The Gaussian of a calculated matrix in the plane of the picture: axes 0, 1 and the energy, 3. *)
Definition full_form (m : mat) (x y w : R) : R :=
  m 0%nat 0%nat * x ^ 2 + m 1%nat 1%nat * y ^ 2 + m 3%nat 3%nat * w ^ 2 + 2 * m 0%nat 1%nat * x * y + 2 * m 0%nat 3%nat * x * w + 2 * m 1%nat 3%nat * y * w.
Definition positive3 (m : mat) : Prop := forall x y w, x <> 0 \/ y <> 0 \/ w <> 0 -> 0 < full_form m x y w.
Definition symmetric (m : mat) : Prop := forall i j, m i j = m j i.

(** The extent of a positive form along one axis, by completing squares. *)
Lemma schur3 : forall a b c d e f, (* a x^2 + b y^2 + c w^2 + 2 d x y + 2 e x w + 2 f y w *)
  0 < c -> 0 < b - f ^ 2 / c -> forall x y w,
  a * x ^ 2 + b * y ^ 2 + c * w ^ 2 + 2 * d * x * y + 2 * e * x * w + 2 * f * y * w =
  (a - e ^ 2 / c - (d - e * f / c) ^ 2 / (b - f ^ 2 / c)) * x ^ 2 + (b - f ^ 2 / c) * (y + (d - e * f / c) / (b - f ^ 2 / c) * x) ^ 2 + c * (w + (e * x + f * y) / c) ^ 2.
Proof. intros a b c d e f Hc Hp x y w. field. split; [lra|]. intros E. apply (Rlt_irrefl 0). replace 0 with (b - f ^ 2 / c) at 2; [exact Hp|]. field_simplify; [|lra]. replace (b * c - f ^ 2) with 0 by lra. lra. Qed.

Definition form (a b c d e f x y w : R) : R := a * x ^ 2 + b * y ^ 2 + c * w ^ 2 + 2 * d * x * y + 2 * e * x * w + 2 * f * y * w.
Lemma form_extent : forall a b c d e f, (forall x y w, x <> 0 \/ y <> 0 \/ w <> 0 -> 0 < form a b c d e f x y w) ->
  let h := a - e ^ 2 / c - (d - e * f / c) ^ 2 / (b - f ^ 2 / c) in
  0 < c /\ 0 < b - f ^ 2 / c /\ 0 < h /\ forall x y w, h * x ^ 2 <= form a b c d e f x y w.
Proof.
  intros a b c d e f Hpos h.
  assert (Hc : 0 < c) by (pose proof (Hpos 0 0 1 ltac:(right; right; lra)) as H; unfold form in H; lra).
  assert (Hp : 0 < b - f ^ 2 / c).
  { pose proof (Hpos 0 1 (- f / c) ltac:(right; left; lra)) as H. unfold form in H. replace (b - f ^ 2 / c) with (a * 0 ^ 2 + b * 1 ^ 2 + c * (- f / c) ^ 2 + 2 * d * 0 * 1 + 2 * e * 0 * (- f / c) + 2 * f * 1 * (- f / c)) by (field; lra). exact H. }
  assert (Hle : forall x y w, h * x ^ 2 <= form a b c d e f x y w).
  { intros x y w. unfold form. rewrite (schur3 a b c d e f Hc Hp). fold h.
    assert (0 <= (b - f ^ 2 / c) * (y + (d - e * f / c) / (b - f ^ 2 / c) * x) ^ 2) by (apply Rmult_le_pos; [lra|apply pow2_ge_0]).
    assert (0 <= c * (w + (e * x + f * y) / c) ^ 2) by (apply Rmult_le_pos; [lra|apply pow2_ge_0]). lra. }
  repeat split; try assumption.
  set (k := (d - e * f / c) / (b - f ^ 2 / c)) in *. pose proof (Hpos 1 (- k) (- (e * 1 + f * - k) / c) ltac:(left; lra)) as H. unfold form in H. rewrite (schur3 a b c d e f Hc Hp) in H. fold h k in H.
  replace (- k + k * 1) with 0 in H by lra. replace (- (e * 1 + f * - k) / c + (e * 1 + f * - k) / c) with 0 in H by (field; lra). lra.
Qed.

Lemma ln2_pos : 0 < ln 2.
Proof. rewrite <- ln_1. apply ln_increasing; lra. Qed.
(** The half widths exist and bound every point where the form does not exceed its value at half maximum. *)
Lemma half_widths : forall m, symmetric m -> positive3 m -> exists wx wy ww,
  half_width m 0 = Some wx /\ half_width m 1 = Some wy /\ half_width m 2 = Some ww /\ 0 < wx /\ 0 < wy /\ 0 < ww /\
  (forall x y w, full_form m x y w <= 2 * ln 2 -> Rabs x <= wx /\ Rabs y <= wy /\ Rabs w <= ww).
Proof.
  intros m Hs Hpos.
  destruct (form_extent (m 0%nat 0%nat) (m 1%nat 1%nat) (m 3%nat 3%nat) (m 0%nat 1%nat) (m 0%nat 3%nat) (m 1%nat 3%nat)) as (X1 & X2 & X3 & X4). { exact Hpos. }
  destruct (form_extent (m 1%nat 1%nat) (m 3%nat 3%nat) (m 0%nat 0%nat) (m 1%nat 3%nat) (m 1%nat 0%nat) (m 3%nat 0%nat)) as (Y1 & Y2 & Y3 & Y4).
  { intros x y w H. pose proof (Hpos w x y ltac:(tauto)) as G. unfold full_form in G. unfold form. rewrite (Hs 1%nat 0%nat), (Hs 3%nat 0%nat). lra. }
  destruct (form_extent (m 3%nat 3%nat) (m 1%nat 1%nat) (m 0%nat 0%nat) (m 3%nat 1%nat) (m 3%nat 0%nat) (m 1%nat 0%nat)) as (W1 & W2 & W3 & W4).
  { intros x y w H. pose proof (Hpos w y x ltac:(tauto)) as G. unfold full_form in G. unfold form. rewrite (Hs 1%nat 0%nat), (Hs 3%nat 0%nat), (Hs 3%nat 1%nat). lra. }
  set (hx := m 0%nat 0%nat - m 0%nat 3%nat ^ 2 / m 3%nat 3%nat - (m 0%nat 1%nat - m 0%nat 3%nat * m 1%nat 3%nat / m 3%nat 3%nat) ^ 2 / (m 1%nat 1%nat - m 1%nat 3%nat ^ 2 / m 3%nat 3%nat)) in *.
  set (hy := m 1%nat 1%nat - m 1%nat 0%nat ^ 2 / m 0%nat 0%nat - (m 1%nat 3%nat - m 1%nat 0%nat * m 3%nat 0%nat / m 0%nat 0%nat) ^ 2 / (m 3%nat 3%nat - m 3%nat 0%nat ^ 2 / m 0%nat 0%nat)) in *.
  set (hw := m 3%nat 3%nat - m 3%nat 0%nat ^ 2 / m 0%nat 0%nat - (m 3%nat 1%nat - m 3%nat 0%nat * m 1%nat 0%nat / m 0%nat 0%nat) ^ 2 / (m 1%nat 1%nat - m 1%nat 0%nat ^ 2 / m 0%nat 0%nat)) in *.
  assert (Hw : forall h, 0 < h -> 0 < sqrt (2 * ln 2) / sqrt h * (101 / 100)).
  { intros h Hh. apply Rmult_lt_0_compat; [|lra]. apply Rdiv_lt_0_compat; apply sqrt_lt_R0; [pose proof ln2_pos; lra|exact Hh]. }
  assert (Hb : forall h x v, 0 < h -> h * x ^ 2 <= v -> v <= 2 * ln 2 -> Rabs x <= sqrt (2 * ln 2) / sqrt h * (101 / 100)).
  { intros h x v Hh H1 H2. assert (Hq : 0 < sqrt h) by (apply sqrt_lt_R0; exact Hh).
    assert (Hx : Rabs x * sqrt h <= sqrt (2 * ln 2)).
    { rewrite <- sqrt_Rsqr_abs. rewrite <- sqrt_mult; [|apply Rle_0_sqr|lra]. apply sqrt_le_1_alt. unfold Rsqr. lra. }
    assert (Rabs x <= sqrt (2 * ln 2) / sqrt h) by (apply Rmult_le_reg_r with (sqrt h); [exact Hq|]; unfold Rdiv; rewrite Rmult_assoc, Rinv_l, Rmult_1_r by lra; exact Hx).
    pose proof (Rabs_pos x). lra. }
  exists (sqrt (2 * ln 2) / sqrt hx * (101 / 100)), (sqrt (2 * ln 2) / sqrt hy * (101 / 100)), (sqrt (2 * ln 2) / sqrt hw * (101 / 100)).
  split; [|split; [|split]].
  - unfold half_width, fproject, planar. cbn -[pow]. fold hx. destruct (Req_EM_T _ 0); [lra|]. destruct (Req_EM_T _ 0); [lra|]. destruct (Rlt_dec 0 hx); [reflexivity|lra].
  - unfold half_width, fproject, planar. cbn -[pow]. fold hy. destruct (Req_EM_T _ 0); [lra|]. destruct (Req_EM_T _ 0); [lra|]. destruct (Rlt_dec 0 hy); [reflexivity|lra].
  - unfold half_width, fproject, planar. cbn -[pow]. fold hw. destruct (Req_EM_T _ 0); [lra|]. destruct (Req_EM_T _ 0); [lra|]. destruct (Rlt_dec 0 hw); [reflexivity|lra].
  - split; [apply Hw; exact X3|]. split; [apply Hw; exact Y3|]. split; [apply Hw; exact W3|]. intros x y w Hv. split; [|split].
    + apply (Hb hx x _ X3 (X4 x y w)). exact Hv.
    + apply (Hb hy y _ Y3 (Y4 y w x)). eapply Rle_trans; [|exact Hv]. unfold form, full_form. rewrite (Hs 1%nat 0%nat), (Hs 3%nat 0%nat). lra.
    + apply (Hb hw w _ W3 (W4 w y x)). eapply Rle_trans; [|exact Hv]. unfold form, full_form. rewrite (Hs 1%nat 0%nat), (Hs 3%nat 0%nat), (Hs 3%nat 1%nat). lra.
Qed.

(** Resolution matrices have no coupling between the vertical and the other directions.  The picture then shows the points where the
    form, taken without its coupling to the energy, is a quarter of its value at half maximum: an ellipsoid of half the size, not
    tilted in energy. *)
Theorem C85_ellipsoid_drawn : forall r0 m n qx qy qw X Y W,
  symmetric m -> positive3 m -> m 0%nat 2%nat = 0 -> m 1%nat 2%nat = 0 -> 0 < r0 -> (0 < n)%nat ->
  (drawn r0 m (2 * n) (qx, qy, qw) (X, Y, W) <->
   m 0%nat 0%nat * (X - qx) ^ 2 + m 1%nat 1%nat * (Y - qy) ^ 2 + 2 * m 0%nat 1%nat * (X - qx) * (Y - qy) + m 3%nat 3%nat * (W - qw) ^ 2 = ln 2 / 2).
Proof.
  intros r0 m n qx qy qw X Y W Hs Hpos Z0 Z1 Hr Hn. destruct (half_widths m Hs Hpos) as (wx & wy & ww & Ex & Ey & Ew & Px & Py & Pw & Hbound).
  unfold drawn. rewrite Ex, Ey, Ew.
  set (red := fun x y w => full_form m x y 0 + m 3%nat 3%nat * w ^ 2).
  assert (Hm33 : 0 < m 3%nat 3%nat). { pose proof (Hpos 0 0 1 ltac:(right; right; lra)) as H. unfold full_form in H. lra. }
  assert (Hf0 : forall x y w, 0 <= full_form m x y w).
  { intros x y w. destruct (Req_dec x 0) as [->|]; [destruct (Req_dec y 0) as [->|]; [destruct (Req_dec w 0) as [->|]|]|]; [unfold full_form; lra| | |]; apply Rlt_le, Hpos; tauto. }
  assert (Hexp : forall x y w, exponent m x y w qx qy qw = red (x - qx) (y - qy) (w - qw)).
  { intros. unfold exponent, red, full_form. rewrite Z0, Z1. ring. }
  assert (Hred0 : forall x y w, 0 <= red x y w). { intros. unfold red. pose proof (Hf0 x y 0). assert (0 <= m 3%nat 3%nat * w ^ 2) by (apply Rmult_le_pos; [lra|apply pow2_ge_0]). lra. }
  assert (HN : 0 < INR (2 * n)) by (apply lt_0_INR; lia).
  assert (Hvol : forall x y w, volume r0 m x y w qx qy qw <= r0).
  { intros. unfold volume. rewrite Hexp. pose proof (Hred0 (x - qx) (y - qy) (w - qw)). rewrite <- (Rmult_1_r r0) at 2. apply Rmult_le_compat_l; [lra|]. rewrite <- exp_0. destruct (Req_dec (red (x - qx) (y - qy) (w - qw)) 0) as [->|]; [right; f_equal; lra|]. left. apply exp_increasing. lra. }
  assert (Hmid : forall q w, grid_pos q w (2 * n) (INR n) = q). { intros. unfold grid_pos. rewrite mult_INR in *. cbn [INR] in *. field. intros E. rewrite E in HN. lra. }
  assert (Hcen : volume r0 m (grid_pos qx wx (2 * n) (INR n)) (grid_pos qy wy (2 * n) (INR n)) (grid_pos qw ww (2 * n) (INR n)) qx qy qw = r0).
  { rewrite !Hmid. unfold volume. rewrite Hexp. unfold red, full_form. replace (exp _) with (exp 0); [rewrite exp_0; ring|]. f_equal. ring. }
  assert (Hlev : forall lv, is_level r0 m (2 * n) (qx, qy, qw) (wx, wy, ww) lv <-> lv = r0 / 2).
  { intros lv. unfold is_level. split.
    - intros [H1 (i & j & k & _ & _ & _ & H2)]. pose proof (H1 n n n ltac:(lia) ltac:(lia) ltac:(lia)) as H. rewrite Hcen in H. pose proof (Hvol (grid_pos qx wx (2 * n) (INR i)) (grid_pos qy wy (2 * n) (INR j)) (grid_pos qw ww (2 * n) (INR k))). lra.
    - intros ->. split; [intros; replace (2 * (r0 / 2)) with r0 by lra; apply Hvol|]. exists n, n, n. repeat split; try lia. rewrite Hcen. lra. }
  assert (Hval : forall x y w, volume r0 m x y w qx qy qw = r0 / 2 <-> red (x - qx) (y - qy) (w - qw) = 2 * ln 2).
  { intros. unfold volume. rewrite Hexp. set (v := red (x - qx) (y - qy) (w - qw)). split.
    - intros H. assert (E : exp (- 1 / 2 * v) = / 2) by (apply (Rmult_eq_reg_l r0); lra). apply (f_equal ln) in E. rewrite ln_exp, ln_Rinv in E by lra. lra.
    - intros ->. replace (- 1 / 2 * (2 * ln 2)) with (- ln 2) by lra. rewrite exp_Ropp, exp_ln by lra. lra. }
  assert (Hquart : forall x y w, red (2 * x) (2 * y) (2 * w) = 4 * red x y w) by (intros; unfold red, full_form; ring).
  assert (Hpos' : forall q w p, 0 < w -> drawn_pos q w (2 * n) p = q + (grid_pos q w (2 * n) p - q) / 2) by (intros; unfold drawn_pos, grid_pos; field; lra).
  transitivity (red (X - qx) (Y - qy) (W - qw) = ln 2 / 2).
  2:{ unfold red, full_form. split; intros H; rewrite <- H; ring. }
  split.
  - intros (lv & p1 & p2 & p3 & Hl & _ & _ & _ & Hv & HP). apply Hlev in Hl. subst lv. apply Hval in Hv. injection HP as -> -> ->. rewrite !Hpos' by assumption.
    set (dx := grid_pos qx wx (2 * n) p1 - qx) in *. set (dy := grid_pos qy wy (2 * n) p2 - qy) in *. set (dw := grid_pos qw ww (2 * n) p3 - qw) in *.
    replace (qx + dx / 2 - qx) with (dx / 2) by lra. replace (qy + dy / 2 - qy) with (dy / 2) by lra. replace (qw + dw / 2 - qw) with (dw / 2) by lra.
    pose proof (Hquart (dx / 2) (dy / 2) (dw / 2)) as E. replace (2 * (dx / 2)) with dx in E by lra. replace (2 * (dy / 2)) with dy in E by lra. replace (2 * (dw / 2)) with dw in E by lra. lra.
  - intros H. set (dx := 2 * (X - qx)). set (dy := 2 * (Y - qy)). set (dw := 2 * (W - qw)).
    assert (E : red dx dy dw = 2 * ln 2) by (unfold dx, dy, dw; rewrite Hquart, H; lra).
    assert (Hxy : full_form m dx dy 0 <= 2 * ln 2). { unfold red in E. assert (0 <= m 3%nat 3%nat * dw ^ 2) by (apply Rmult_le_pos; [lra|apply pow2_ge_0]). lra. }
    assert (Hww : full_form m 0 0 dw <= 2 * ln 2). { unfold red in E. pose proof (Hf0 dx dy 0). unfold full_form at 1. lra. }
    destruct (Hbound dx dy 0 Hxy) as (Bx & By & _). destruct (Hbound 0 0 dw Hww) as (_ & _ & Bw).
    assert (Hp : forall d w q, 0 < w -> Rabs d <= w -> let p := INR (2 * n) * (d + w) / (2 * w) in 0 <= p <= INR (2 * n) /\ grid_pos q w (2 * n) p = q + d).
    { intros d w q Hw Hd p. assert (Hd' : - w <= d <= w) by (revert Hd; unfold Rabs; destruct (Rcase_abs d); lra). unfold p, grid_pos. split; [|field; lra].
      assert (Hi : 0 < / (2 * w)) by (apply Rinv_0_lt_compat; lra). unfold Rdiv. split; [repeat apply Rmult_le_pos; lra|].
      apply Rle_trans with (INR (2 * n) * (2 * w) * / (2 * w)); [apply Rmult_le_compat_r; [lra|]; apply Rmult_le_compat_l; lra|]. rewrite Rmult_assoc, Rinv_r by lra. lra. }
    destruct (Hp dx wx qx Px Bx) as [I1 G1]. destruct (Hp dy wy qy Py By) as [I2 G2]. destruct (Hp dw ww qw Pw Bw) as [I3 G3].
    exists (r0 / 2). do 3 eexists. split; [apply Hlev; reflexivity|]. split; [exact I1|]. split; [exact I2|]. split; [exact I3|]. split.
    + apply Hval. rewrite G1, G2, G3. replace (qx + dx - qx) with dx by lra. replace (qy + dy - qy) with dy by lra. replace (qw + dw - qw) with dw by lra. exact E.
    + rewrite !Hpos', G1, G2, G3 by assumption. unfold dx, dy, dw. f_equal; [f_equal|]; lra.
Qed.
Print Assumptions C85_ellipsoid_drawn.

(** The unit matrix meets the hypotheses; the true half-maximum point on the first axis is not drawn, the point half way is. *)
Definition unit_mat : mat := fun i j => if Nat.eqb i j then 1 else 0.
Lemma unit_mat_ok : symmetric unit_mat /\ positive3 unit_mat.
Proof.
  split; [intros i j; unfold unit_mat; rewrite Nat.eqb_sym; reflexivity|]. intros x y w H. unfold full_form, unit_mat. cbn -[pow].
  pose proof (pow2_ge_0 x). pose proof (pow2_ge_0 y). pose proof (pow2_ge_0 w). destruct H as [H|[H|H]]; apply pow_nonzero with (n := 2%nat) in H; lra.
Qed.
Example C85_ellipsoid_example : drawn 1 unit_mat 100 (0, 0, 0) (sqrt (2 * ln 2) / 2, 0, 0).
Proof.
  change 100%nat with (2 * 50)%nat. apply C85_ellipsoid_drawn; try apply unit_mat_ok; try reflexivity; try lra; try lia. unfold unit_mat. cbn -[pow].
  assert (E : sqrt (2 * ln 2) * sqrt (2 * ln 2) = 2 * ln 2) by (apply sqrt_sqrt; pose proof ln2_pos; lra). replace ((sqrt (2 * ln 2) / 2 - 0) ^ 2) with (sqrt (2 * ln 2) * sqrt (2 * ln 2) / 4) by field. rewrite E. lra.
Qed.
(** The surface drawn is the half-maximum surface of the resolution function: false. *)
Theorem C85_half_maximum_surface_refuted : exists r0 m P, symmetric m /\ positive3 m /\ m 0%nat 2%nat = 0 /\ m 1%nat 2%nat = 0 /\ 0 < r0 /\
  full_form m (fst (fst P)) (snd (fst P)) (snd P) = 2 * ln 2 /\ ~ drawn r0 m 100 (0, 0, 0) P.
Proof.
  exists 1, unit_mat, (sqrt (2 * ln 2), 0, 0). destruct unit_mat_ok as [H1 H2]. repeat split; try assumption; try reflexivity; try lra; try (unfold unit_mat; cbn; lra).
  - unfold full_form, unit_mat. cbn -[pow]. assert (E : sqrt (2 * ln 2) ^ 2 = 2 * ln 2) by (apply pow2_sqrt; pose proof ln2_pos; lra). rewrite E. ring.
  - change 100%nat with (2 * 50)%nat. intros H. apply C85_ellipsoid_drawn in H; try assumption; try reflexivity; try lra; try lia. unfold unit_mat in H. cbn -[pow] in H.
    rewrite Rminus_0_r, pow2_sqrt in H by (pose proof ln2_pos; lra). pose proof ln2_pos. lra.
Qed.
Print Assumptions C85_half_maximum_surface_refuted.
(** Nor is it a smaller copy of it when wave vector and energy are coupled: of two points at opposite energies, which the resolution
    function tells apart, both or none are drawn. *)
Theorem C85_no_energy_tilt : forall r0 m n qx qy qw dx dy dw,
  symmetric m -> positive3 m -> m 0%nat 2%nat = 0 -> m 1%nat 2%nat = 0 -> 0 < r0 -> (0 < n)%nat ->
  (drawn r0 m (2 * n) (qx, qy, qw) (qx + dx, qy + dy, qw + dw) <-> drawn r0 m (2 * n) (qx, qy, qw) (qx + dx, qy + dy, qw - dw)).
Proof.
  intros. rewrite !C85_ellipsoid_drawn by assumption. replace (qx + dx - qx) with dx by lra. replace (qy + dy - qy) with dy by lra. replace (qw + dw - qw) with dw by lra. replace (qw - dw - qw) with (- dw) by lra.
  replace ((- dw) ^ 2) with (dw ^ 2) by ring. reflexivity.
Qed.
Print Assumptions C85_no_energy_tilt.

(** Two or more points: the picture fails, except for four points, whose matrices are mixed. *)
Theorem C85_several_points : forall stack, (2 <= List.length stack)%nat ->
  match ellipsoid_matrices stack with
  | Err e => List.length stack <> 4%nat /\ (e = IndexError \/ e = ValueError)
  | Ok l => List.length stack = 4%nat /\ List.length l = 4%nat /\
      forall p i j z, (p < 4)%nat -> (j < 4)%nat -> nth p l z i j = nth j stack z i p
  end.
Proof.
  intros stack H. destruct stack as [|a [|b [|c [|d [|e l]]]]]; cbn in H; try lia; cbn; [split; [lia|tauto]|split; [lia|tauto]| |split; [lia|tauto]].
  split; [reflexivity|]. split; [reflexivity|]. intros p i j z Hp Hj.
  destruct p as [|[|[|[|p]]]]; try lia; destruct j as [|[|[|[|j]]]]; try lia; reflexivity.
Qed.
Print Assumptions C85_several_points.
Example C85_several_example : exists l, ellipsoid_matrices [unit_mat; unit_mat; unit_mat; unit_mat] = Ok l /\ nth 0 l unit_mat 3%nat 3%nat = 0.
Proof. eexists. split; [reflexivity|]. reflexivity. Qed.

(** ** C86: the ellipses *)

(** A history of calculations of ellipses and pictures of them. *)
Inductive action (point : Type) := Curves (p : list point) (n : nat) | Picture (p : list point) (n : nat).
Arguments Curves {point}. Arguments Picture {point}.
Definition act {point settings} (eqb : list point -> list point -> bool) (s : @store point settings) (a : action point) : store :=
  match a with Curves p n => calc_projections eqb p n s | Picture p n => fst (plot_projections eqb p n s) end.
Definition fresh {point settings} (e : settings) : @store point settings := mkStore e None None.

Lemma history_inv : forall point settings (eqb : list point -> list point -> bool), (forall a b, eqb a b = true <-> a = b) ->
  forall h (e : settings), let s := fold_left (act eqb) h (fresh e) in
  now s = e /\ match calculated s, curves s with
               | None, None => h = []
               | Some (p, e1), Some (q, e2, _) => p = q /\ e1 = e /\ e2 = e
               | _, _ => False end.
Proof.
  intros point settings eqb Heqb h e. induction h as [|a h IH] using rev_ind; [cbn; auto|]. rewrite fold_left_app. cbn [fold_left]. cbv zeta in *.
  set (s := fold_left (act eqb) h (fresh e)) in *. destruct IH as [Hn IH]. clearbody s. destruct s as [nw cal cur]. cbn in Hn. subst nw.
  assert (HC : forall p n, let s := calc_projections eqb p n (mkStore e cal cur) in now s = e /\ match calculated s, curves s with None, None => h ++ [a] = [] | Some (p, e1), Some (q, e2, _) => p = q /\ e1 = e /\ e2 = e | _, _ => False end).
  { intros p n. unfold calc_projections, get_resolution. cbn [calculated]. destruct cal as [[p0 e1]|].
    - destruct (eqb p p0); cbn; [|auto]. cbn in IH. destruct cur as [[[q e2] k]|]; [|contradiction]. destruct IH as (-> & -> & ->). auto.
    - cbn. auto. }
  destruct a as [p n|p n]; cbn [act]; [apply HC|]. unfold plot_projections. cbn [fst curves calculated].
  destruct cur as [[[q e2] k]|]; [|apply HC]. destruct cal as [[p0 e1]|]; [|apply HC]. destruct (eqb p p0); [|apply HC]. cbn. cbn in IH. destruct IH as (-> & -> & ->). auto.
Qed.

(** Pictures interleaved only with other pictures and calculations of ellipses, on an unchanged spectrometer, show the ellipses of the
    points asked for; but with the number of positions of the calculation that is reused. *)
Theorem C86_pictures_show_points_asked : forall point settings (eqb : list point -> list point -> bool), (forall a b, eqb a b = true <-> a = b) ->
  forall h (e : settings) p n, exists k, snd (plot_projections eqb p n (fold_left (act eqb) h (fresh e))) = Ok (p, e, k).
Proof.
  intros point settings eqb Heqb h e p n. destruct (history_inv point settings eqb Heqb h e) as [Hn Hinv]. set (s := fold_left (act eqb) h (fresh e)) in *. clearbody s.
  destruct s as [nw cal cur]. cbn in Hn. subst nw. cbn in Hinv.
  assert (HC : exists k, calc_projections eqb p n (mkStore e cal cur) = mkStore e (Some (p, e)) (Some (p, e, k))).
  { unfold calc_projections, get_resolution. cbn [calculated]. destruct cal as [[p0 e1]|]; [|exists n; reflexivity]. destruct (eqb p p0) eqn:E; [|exists n; reflexivity].
    apply Heqb in E. subst p0. cbn. destruct cur as [[[q e2] k]|]; [|contradiction]. destruct Hinv as (-> & -> & ->). exists n. reflexivity. }
  unfold plot_projections. cbn [curves calculated]. destruct HC as [k HC].
  assert (Hfin : forall k, match curves (mkStore e (Some (p, e)) (Some (p, e, k))), calculated (mkStore e (Some (p, e)) (Some (p, e, k))) with
      | Some (q, e, n), Some (r, _) => if Nat.ltb (List.length q) (List.length r) then Err IndexError else Ok (firstn (List.length r) q, e, n)
      | _, _ => Err AttributeError end = Ok (p, e, k)).
  { intros k0. cbn [curves calculated]. rewrite Nat.ltb_irrefl, firstn_all. reflexivity. }
  destruct cur as [[[q e2] k2]|]; [|rewrite HC; exists k; apply Hfin]. destruct cal as [[p0 e1]|]; [|rewrite HC; exists k; apply Hfin].
  destruct (eqb p p0) eqn:E; [|rewrite HC; exists k; apply Hfin]. apply Heqb in E. subst p0. destruct Hinv as (-> & -> & ->). exists k2. apply Hfin.
Qed.
Print Assumptions C86_pictures_show_points_asked.

(** A calculation of the resolution in between: the picture shows the ellipses of other points, or fails when they are fewer. *)
Theorem C86_other_points_shown : forall point settings (eqb : list point -> list point -> bool), (forall a b, eqb a b = true <-> a = b) ->
  forall (s : @store point settings) p n q m,
  let s' := calc_resolution q (calc_projections eqb p n s) in
  snd (plot_projections eqb q m s') = if Nat.ltb (List.length p) (List.length q) then Err IndexError
    else Ok (firstn (List.length q) p, match calculated (calc_projections eqb p n s) with Some (_, e) => e | None => now s end, n).
Proof.
  intros point settings eqb Heqb s p n q m s'.
  assert (HC : exists e, calc_projections eqb p n s = mkStore (now s) (Some (p, e)) (Some (p, e, n))).
  { unfold calc_projections, get_resolution. destruct s as [nw cal cur]. cbn [calculated]. destruct cal as [[p0 e1]|]; [|eexists; reflexivity]. destruct (eqb p p0) eqn:E; [|eexists; reflexivity]. apply Heqb in E. subst. eexists. reflexivity. }
  destruct HC as [e HC]. unfold s'. rewrite HC. unfold calc_resolution, plot_projections. cbn [curves calculated now]. rewrite (proj2 (Heqb q q) eq_refl). cbn [curves calculated snd]. reflexivity.
Qed.
Print Assumptions C86_other_points_shown.
(** A picture after a change of the spectrometer still shows the ellipses before it. *)
Theorem C86_change_not_shown : forall point settings (eqb : list point -> list point -> bool), (forall a b, eqb a b = true <-> a = b) ->
  forall (e : settings) f p n m, snd (plot_projections eqb p m (change f (calc_projections eqb p n (fresh e)))) = Ok (p, e, n).
Proof.
  intros point settings eqb Heqb e f p n m. unfold calc_projections, fresh, get_resolution, calc_resolution, change, plot_projections. cbn [curves calculated now].
  rewrite (proj2 (Heqb p p) eq_refl). cbn [curves calculated snd]. rewrite Nat.ltb_irrefl, firstn_all. reflexivity.
Qed.
Print Assumptions C86_change_not_shown.
Definition nat_eqb (a b : list nat) : bool := if list_eq_dec Nat.eq_dec a b then true else false.
Lemma nat_eqb_ok : forall a b, nat_eqb a b = true <-> a = b.
Proof. intros a b. unfold nat_eqb. destruct (list_eq_dec Nat.eq_dec a b); split; intros; congruence. Qed.
(** Ellipses at point 1, resolution at point 2, picture of point 2: the ellipse of point 1. *)
Example C86_example : snd (plot_projections nat_eqb [2%nat] 36 (calc_resolution [2%nat] (calc_projections nat_eqb [1%nat] 36 (fresh tt)))) = Ok ([1%nat], tt, 36%nat).
Proof. reflexivity. Qed.
Example C86_history_example : snd (plot_projections nat_eqb [2%nat] 72 (fold_left (act nat_eqb) [Curves [1%nat] 36; Picture [2%nat] 36; Curves [2%nat] 50] (fresh tt))) = Ok ([2%nat], tt, 50%nat).
Proof. reflexivity. Qed.

(** The range of each axis after all curves is the smallest that holds the ranges of all. *)
Theorem C86_axes_hold_all_curves : forall l, l <> [] -> let '(a, b) := axis_limits l in
  (forall lo hi, In (lo, hi) l -> a <= lo /\ hi <= b) /\ (exists hi, In (a, hi) l) /\ (exists lo, In (lo, b) l).
Proof.
  intros l Hl. unfold axis_limits. destruct l as [|[lo hi] l]; [congruence|]. cbn [limits_from fst snd]. clear Hl.
  assert (H : forall l a b, let '(a', b') := limits_from l false (a, b) in a' <= a /\ b <= b' /\ (forall lo hi, In (lo, hi) l -> a' <= lo /\ hi <= b') /\ (a' = a \/ exists hi, In (a', hi) l) /\ (b' = b \/ exists lo, In (lo, b') l)).
  { clear. induction l as [|[lo hi] l IH]; intros a b; cbn [limits_from fst snd]; [repeat split; try lra; try (left; reflexivity); contradiction|].
    set (a1 := if Rlt_dec lo a then lo else a). set (b1 := if Rlt_dec b hi then hi else b). specialize (IH a1 b1). destruct (limits_from l false (a1, b1)) as [a' b'].
    destruct IH as (H1 & H2 & H3 & H4 & H5). assert (Ha : a1 <= a /\ a1 <= lo /\ (a1 = a \/ a1 = lo)) by (unfold a1; destruct (Rlt_dec lo a); lra). assert (Hb : b <= b1 /\ hi <= b1 /\ (b1 = b \/ b1 = hi)) by (unfold b1; destruct (Rlt_dec b hi); lra).
    split; [lra|]. split; [lra|]. split; [|split].
    - intros lo' hi' [E|Hin]; [injection E as <- <-; lra|exact (H3 lo' hi' Hin)].
    - destruct H4 as [->|[h Hh]]; [|right; exists h; right; exact Hh]. destruct Ha as (_ & _ & [->| ->]); [left; reflexivity|right; exists hi; left; reflexivity].
    - destruct H5 as [->|[h Hh]]; [|right; exists h; right; exact Hh]. destruct Hb as (_ & _ & [->| ->]); [left; reflexivity|right; exists lo; left; reflexivity]. }
  specialize (H l lo hi). destruct (limits_from l false (lo, hi)) as [a b]. destruct H as (H1 & H2 & H3 & H4 & H5). split; [|split].
  - intros lo' hi' [E|Hin]; [injection E as <- <-; lra|exact (H3 lo' hi' Hin)].
  - destruct H4 as [->|[h Hh]]; [exists hi; left; reflexivity|exists h; right; exact Hh].
  - destruct H5 as [->|[h Hh]]; [exists lo; left; reflexivity|exists h; right; exact Hh].
Qed.
Print Assumptions C86_axes_hold_all_curves.
Example C86_axes_example : axis_limits [(2, 3); (1, 2)] = (1, 3).
Proof. unfold axis_limits, limits_from. cbn [fst snd]. destruct (Rlt_dec 1 2); [|lra]. destruct (Rlt_dec 3 2); [lra|]. reflexivity. Qed.

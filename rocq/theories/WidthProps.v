(** Properties of the reported Bragg, phonon and extent widths (C58). *)
From Coq Require Import String List ZArith Reals Lra Lia Bool Psatz.
From Verif Require Import Base MatModel NumBounds MatProps EllipseProps.
Import ListNotations.
Local Open Scope R_scope.

Definition lin4 (c x : nat -> R) : R := c 0%nat * x 0%nat + c 1%nat * x 1%nat + c 2%nat * x 2%nat + c 3%nat * x 3%nat.
(** The closed form is the inverse of the matrix the code inverts. *)
Lemma inv_t_ok c : c 3%nat <> 0 -> forall i j, (i < 4)%nat -> (j < 4)%nat -> sum4 (fun k => t_rows c i k * inv_t c k j) = if Nat.eqb i j then 1 else 0.
Proof. intros N i j Li Lj. unfold sum4, t_rows, inv_t. destruct i as [|[|[|[|i]]]], j as [|[|[|[|j]]]]; try lia; cbn [Nat.eqb]; field; auto. Qed.
Definition apply4 (s : mat) (y : nat -> R) : nat -> R := fun k => sum4 (fun l => s k l * y l).
Lemma congr_quad s m y : quad 4 (congr s m) y = quad 4 m (apply4 s y).
Proof. unfold quad, congr, apply4, sum4. cbn [sumn]. ring. Qed.
Lemma lin_apply c y : c 3%nat <> 0 -> lin4 c (apply4 (inv_t c) y) = y 3%nat.
Proof. intros N. unfold lin4, apply4, sum4, inv_t. cbn [Nat.eqb]. field. auto. Qed.
Lemma apply_back c x : c 3%nat <> 0 -> forall i, (i < 4)%nat -> apply4 (inv_t c) (fun j => if Nat.eqb j 3 then lin4 c x else x j) i = x i.
Proof. intros N i L. unfold apply4, sum4, inv_t, lin4. destruct i as [|[|[|[|i]]]]; try lia; cbn [Nat.eqb]; field; auto. Qed.
Lemma congr_posdef c m : c 3%nat <> 0 -> posdef 4 m -> posdef 4 (congr (inv_t c) m).
Proof.
  intros N P y (i & Li & Ni). rewrite congr_quad. apply P. destruct (Req_dec (y 3%nat) 0) as [Z|Z].
  - exists i. split; auto. assert (i <> 3)%nat by (intros ->; contradiction). unfold apply4, sum4, inv_t. destruct i as [|[|[|[|i]]]]; try lia; cbn [Nat.eqb]; rewrite ?Rmult_0_l, ?Rplus_0_l, ?Rplus_0_r, ?Rmult_1_l; exact Ni.
  - destruct (Req_dec (apply4 (inv_t c) y 0%nat) 0) as [A|A]; [|exists 0%nat; split; [lia|auto]]. destruct (Req_dec (apply4 (inv_t c) y 1%nat) 0) as [B|B]; [|exists 1%nat; split; [lia|auto]].
    destruct (Req_dec (apply4 (inv_t c) y 2%nat) 0) as [C|C]; [|exists 2%nat; split; [lia|auto]]. exists 3%nat. split; [lia|]. intros D. apply Z. rewrite <- (lin_apply c y N). unfold lin4. rewrite A, B, C, D. ring.
Qed.
Definition one (t : R) : nat -> R := fun _ => t.
(** The half-width of a Gaussian with form m t^2. *)
Lemma half_width m : 0 < m -> 0 < sqrt (8 * ln 2) / sqrt m /\ m * (sqrt (8 * ln 2) / sqrt m / 2) ^ 2 = 2 * ln 2.
Proof.
  intros P. assert (L := ln2_bounds). assert (S := sqrt_lt_R0 _ P). assert (S8 : 0 < sqrt (8 * ln 2)) by (apply sqrt_lt_R0; lra). split; [apply Rdiv_lt_0_compat; auto|].
  assert (Q : sqrt m * sqrt m = m) by (apply sqrt_sqrt; lra). assert (Q8 : sqrt (8 * ln 2) * sqrt (8 * ln 2) = 8 * ln 2) by (apply sqrt_sqrt; lra).
  rewrite <- Q at 1. replace (2 * ln 2) with (sqrt (8 * ln 2) * sqrt (8 * ln 2) / 4) by (rewrite Q8; field). field. lra.
Qed.
(** C58.  get_phonon_width: the returned width is the full width at half maximum, seen through the dispersion
    surface c.x, of the Gaussian with the given matrix: half of it is reached on the half-maximum contour and no point inside the
    contour is further. *)
Theorem C58_phonon : forall r0 m c, posdef 4 m -> c 3%nat <> 0 -> exists r f, phonon_width r0 m c = Some (r, f) /\ 0 < f /\
  (exists x, quad 4 m x = 2 * ln 2 /\ lin4 c x = f / 2) /\ (forall x, quad 4 m x <= 2 * ln 2 -> Rabs (lin4 c x) <= f / 2).
Proof.
  intros r0 m c P N. unfold phonon_width. destruct (Req_EM_T (c 3%nat) 0); [contradiction|]. set (m0 := congr (inv_t c) m). assert (P0 : posdef 4 m0) by now apply congr_posdef.
  destruct (C34_minimum 3 0 r0 m0 ltac:(lia) P0) as (r1 & m1 & E1 & P1 & _ & M1). rewrite E1. destruct (C34_minimum 2 0 r1 m1 ltac:(lia) P1) as (r2 & m2 & E2 & P2 & _ & M2). rewrite E2.
  destruct (C34_minimum 1 0 r2 m2 ltac:(lia) P2) as (r3 & m3 & E3 & P3 & _ & M3). rewrite E3. assert (D := posdef_diag _ _ 0 P3 ltac:(lia)). destruct (Rlt_dec 0 (m3 0%nat 0%nat)); [|contradiction].
  destruct (half_width _ D) as [Pf Hf]. set (f := sqrt (8 * ln 2) / sqrt (m3 0%nat 0%nat)) in *. exists r3, f. split; auto. split; auto.
  assert (Q1 : forall t, quad 1 m3 (one t) = m3 0%nat 0%nat * t ^ 2) by (intros; unfold quad, one; cbn [sumn]; ring).
  split.
  - destruct (M3 (one (f / 2))) as [_ (t2 & H2 & _)]. destruct (M2 (insert 0 t2 (one (f / 2)))) as [_ (t1 & H1 & _)]. destruct (M1 (insert 0 t1 (insert 0 t2 (one (f / 2))))) as [_ (t0 & H0 & _)].
    exists (apply4 (inv_t c) (insert 0 t0 (insert 0 t1 (insert 0 t2 (one (f / 2)))))). rewrite lin_apply by auto. split; [|reflexivity].
    rewrite <- congr_quad. fold m0. rewrite H0, H1, H2, Q1. exact Hf.
  - intros x Hx. set (y := fun j => if Nat.eqb j 3 then lin4 c x else x j). assert (E : quad 4 m x = quad 4 m0 y).
    { unfold m0. rewrite congr_quad. apply quad_ext; auto. intros i L. symmetry. now apply apply_back. }
    assert (B : m3 0%nat 0%nat * (lin4 c x) ^ 2 <= quad 4 m0 y).
    { rewrite (quad_ext 4 m0 m0 y (insert 0 (x 0%nat) (insert 0 (x 1%nat) (insert 0 (x 2%nat) (one (lin4 c x)))))); auto; [|intros [|[|[|[|i]]]] L; try lia; reflexivity].
      eapply Rle_trans; [|apply M1]. eapply Rle_trans; [|apply M2]. eapply Rle_trans; [|apply M3]. rewrite Q1. apply Rle_refl. }
    rewrite <- E in B. assert (C : m3 0%nat 0%nat * (lin4 c x) ^ 2 <= m3 0%nat 0%nat * (f / 2) ^ 2) by lra. apply Rmult_le_reg_l in C; auto.
    apply Rsqr_incr_0; [|apply Rabs_pos|lra]. rewrite <- Rsqr_abs. unfold Rsqr. cbn [pow] in C. rewrite !Rmult_1_r in C. exact C.
Qed.
Print Assumptions C58_phonon.
Example C58_ex : posdef 4 ex4 /\ (fun i : nat => if Nat.eqb i 3 then 2 else 1) 3%nat <> 0.
Proof. split; [apply ex4_posdef|cbn; lra]. Qed.
(** C58.  get_bragg_widths returns five numbers: for coordinates 0, 1, 2, the energy seen by an incoherent scatterer, and
    coordinate 3, each TWICE the full width at half maximum: the Gaussian falls to one half at a quarter of the reported width and to one sixteenth at half of it. *)
Definition axis (i : nat) (t : R) : nat -> R := fun j => if Nat.eqb j i then t else 0.
Lemma quad_axis i t m : (i < 4)%nat -> quad 4 m (axis i t) = m i i * t ^ 2.
Proof. intros L. unfold quad, axis. destruct i as [|[|[|[|i]]]]; try lia; cbn [sumn Nat.eqb]; ring. Qed.
Theorem C58_bragg : forall m, posdef 4 m -> exists w0 w1 w2 v w3, bragg_widths m = Some [w0; w1; w2; v; w3] /\ 0 < v /\
  (forall i w, In (i, w) [(0%nat, w0); (1%nat, w1); (2%nat, w2); (3%nat, w3)] -> 0 < w /\ exp (- / 2 * quad 4 m (axis i (w / 4))) = / 2 /\ exp (- / 2 * quad 4 m (axis i (w / 2))) = / 16) /\
  (exists x, exp (- / 2 * quad 4 m x) = / 2 /\ x 3%nat = v / 4) /\ (forall x, / 2 <= exp (- / 2 * quad 4 m x) -> Rabs (x 3%nat) <= v / 4).
Proof.
  intros m P. unfold bragg_widths. destruct (C58_phonon 0 m (fun i => if Nat.eqb i 3 then 1 else 0) P) as (r & f & E & Pf & (x & Qx & Lx) & B); [cbn; lra|]. rewrite E. cbn [map].
  eexists _, _, _, _, _. split; [reflexivity|]. split; [lra|].
  assert (X2 : exp (- / 2 * (2 * ln 2)) = / 2) by (replace (- / 2 * (2 * ln 2)) with (- ln 2) by field; rewrite exp_Ropp, exp_ln by lra; reflexivity).
  assert (Ll : forall x, lin4 (fun i => if Nat.eqb i 3 then 1 else 0) x = x 3%nat) by (intros; unfold lin4; cbn [Nat.eqb]; ring).
  split; [|split].
  - intros i w I. assert (W : (i < 4)%nat /\ w = sqrt (8 * ln 2) / sqrt (m i i) * 2) by (cbn [In] in I; repeat (destruct I as [I|I]; [injection I as <- <-; split; [lia|reflexivity]|]); contradiction).
    destruct W as [L ->]. assert (D := posdef_diag _ _ i P L). destruct (half_width _ D) as [Ph Hh]. split; [lra|]. rewrite !quad_axis by auto. split.
    + replace (sqrt (8 * ln 2) / sqrt (m i i) * 2 / 4) with (sqrt (8 * ln 2) / sqrt (m i i) / 2) by (field; apply Rgt_not_eq, sqrt_lt_R0, D). rewrite Hh. exact X2.
    + replace (- / 2 * (m i i * (sqrt (8 * ln 2) / sqrt (m i i) * 2 / 2) ^ 2)) with (- / 2 * (m i i * (sqrt (8 * ln 2) / sqrt (m i i) / 2) ^ 2) + - / 2 * (m i i * (sqrt (8 * ln 2) / sqrt (m i i) / 2) ^ 2) + (- / 2 * (m i i * (sqrt (8 * ln 2) / sqrt (m i i) / 2) ^ 2) + - / 2 * (m i i * (sqrt (8 * ln 2) / sqrt (m i i) / 2) ^ 2))).
      * rewrite Hh, !exp_plus, X2. field.
      * field. apply Rgt_not_eq, sqrt_lt_R0, D.
  - exists x. rewrite Qx. split; [exact X2|]. rewrite Ll in Lx. lra.
  - intros y Hy. specialize (B y). rewrite Ll in B. assert (Q : quad 4 m y <= 2 * ln 2). { assert (Hy' : exp (- / 2 * (2 * ln 2)) <= exp (- / 2 * quad 4 m y)) by (rewrite X2; exact Hy). destruct (Rle_dec (quad 4 m y) (2 * ln 2)) as [L|L]; auto. exfalso. apply Rnot_le_lt in L. assert (Y : exp (- / 2 * quad 4 m y) < exp (- / 2 * (2 * ln 2))) by (apply exp_increasing; lra). lra. }
    specialize (B Q). lra.
Qed.
Print Assumptions C58_bragg.
(** C58.  The documented reading, a full width at half maximum, is false. *)
Theorem C58_fwhm_refuted : exists m w l, posdef 4 m /\ bragg_widths m = Some (w :: l) /\ exp (- / 2 * quad 4 m (axis 0 (w / 2))) < / 2.
Proof.
  destruct (C58_bragg ex4 ex4_posdef) as (w0 & w1 & w2 & v & w3 & E & _ & W & _). exists ex4, w0, [w1; w2; v; w3]. split; [apply ex4_posdef|]. split; auto. destruct (W 0%nat w0) as (_ & _ & ->); [now left|]. lra.
Qed.
Print Assumptions C58_fwhm_refuted.

(** C58.  fproject: the half-extent of the half-maximum ellipsoid along coordinate i. *)
Lemma quad3 m x : sym 3 m -> quad 3 m x = m 0%nat 0%nat * x 0%nat ^ 2 + m 1%nat 1%nat * x 1%nat ^ 2 + m 2%nat 2%nat * x 2%nat ^ 2 + 2 * m 0%nat 1%nat * x 0%nat * x 1%nat + 2 * m 0%nat 2%nat * x 0%nat * x 2%nat + 2 * m 1%nat 2%nat * x 1%nat * x 2%nat.
Proof. intros Sy. unfold quad. cbn [sumn]. rewrite (Sy 1%nat 0%nat), (Sy 2%nat 0%nat), (Sy 2%nat 1%nat) by lia. ring. Qed.
Definition place (i j v : nat) (a b c : R) : nat -> R := fun k => if Nat.eqb k i then a else if Nat.eqb k j then b else c.
Lemma extent m i j v : sym 3 m -> posdef 3 m -> In (i, j, v) [(0, 1, 2); (1, 2, 0); (2, 1, 0)]%nat ->
  let p00 := m i i - m i v ^ 2 / m v v in let p01 := m i j - m i v * m j v / m v v in let p11 := m j j - m j v ^ 2 / m v v in let h := p00 - p01 ^ 2 / p11 in
  0 < m v v /\ 0 < p11 /\ 0 < h /\ forall a b c, quad 3 m (place i j v a b c) = h * a ^ 2 + p11 * (b + p01 / p11 * a) ^ 2 + m v v * (c + (m i v * a + m j v * b) / m v v) ^ 2.
Proof.
  intros Sy P I. cbv zeta. assert (Lv : (v < 3)%nat) by (cbn [In] in I; repeat (destruct I as [I|I]; [injection I as <- <- <-; lia|]); contradiction). assert (Dv := posdef_diag _ _ v P Lv).
  assert (Q : forall a b c, quad 3 m (place i j v a b c) = m i i * a ^ 2 + m j j * b ^ 2 + m v v * c ^ 2 + 2 * m i j * a * b + 2 * m i v * a * c + 2 * m j v * b * c).
  { intros a b c. rewrite quad3 by auto. unfold place. cbn [In] in I. repeat (destruct I as [I|I]; [injection I as <- <- <-; cbn [Nat.eqb]; rewrite ?(Sy 1%nat 0%nat), ?(Sy 2%nat 0%nat), ?(Sy 2%nat 1%nat) by lia; ring|]). contradiction. }
  assert (NZ : forall a b c, a <> 0 \/ b <> 0 -> 0 < quad 3 m (place i j v a b c)).
  { intros a b c N. apply P. cbn [In] in I. repeat (destruct I as [I|I]; [injection I as <- <- <-|]); try contradiction; destruct N as [N|N];
      [exists 0%nat|exists 1%nat|exists 1%nat|exists 2%nat|exists 2%nat|exists 1%nat]; (split; [lia|exact N]). }
  set (p00 := m i i - m i v ^ 2 / m v v). set (p01 := m i j - m i v * m j v / m v v). set (p11 := m j j - m j v ^ 2 / m v v).
  assert (R : forall a b c, quad 3 m (place i j v a b c) = p00 * a ^ 2 + 2 * p01 * a * b + p11 * b ^ 2 + m v v * (c + (m i v * a + m j v * b) / m v v) ^ 2) by (intros; rewrite Q; unfold p00, p01, p11; field; lra).
  assert (P11 : 0 < p11). { assert (X := NZ 0 1 (- ((m i v * 0 + m j v * 1) / m v v)) ltac:(right; lra)). rewrite R in X. ring_simplify in X. lra. }
  assert (Ph : 0 < p00 - p01 ^ 2 / p11).
  { assert (X := NZ 1 (- (p01 / p11)) (- ((m i v * 1 + m j v * - (p01 / p11)) / m v v)) ltac:(left; lra)). rewrite R in X.
    replace (p00 * 1 ^ 2 + 2 * p01 * 1 * - (p01 / p11) + p11 * (- (p01 / p11)) ^ 2 + m v v * (- ((m i v * 1 + m j v * - (p01 / p11)) / m v v) + (m i v * 1 + m j v * - (p01 / p11)) / m v v) ^ 2) with (p00 - p01 ^ 2 / p11) in X by (field; lra). exact X. }
  split; auto. split; auto. split; auto. intros a b c. rewrite R. field. lra.
Qed.
Theorem C58_extent : forall m i, sym 3 m -> posdef 3 m ->
  ((0 <= i < 3)%Z -> exists h, fproject m i = Ok (Some h) /\ 0 < h /\ (exists x, quad 3 m x = 2 * ln 2 /\ x (Z.to_nat i) = h) /\ forall x, quad 3 m x <= 2 * ln 2 -> Rabs (x (Z.to_nat i)) <= h) /\
  (~ (0 <= i < 3)%Z -> fproject m i = Err ValueError).
Proof.
  intros m i Sy P. split.
  - intros Li. assert (L := ln2_bounds).
    assert (K : forall i j v, In (i, j, v) [(0, 1, 2); (1, 2, 0); (2, 1, 0)]%nat -> exists h,
      (let p00 := m i i - m i v ^ 2 / m v v in let p01 := m i j - m i v * m j v / m v v in let p11 := m j j - m j v ^ 2 / m v v in let h := p00 - p01 ^ 2 / p11 in
       if Req_EM_T (m v v) 0 then None else if Req_EM_T p11 0 then None else if Rlt_dec 0 h then Some (sqrt (2 * ln 2) / sqrt h) else None) = Some h /\
      0 < h /\ (exists x, quad 3 m x = 2 * ln 2 /\ x i = h) /\ forall x, quad 3 m x <= 2 * ln 2 -> Rabs (x i) <= h).
    { clear i Li. intros i j v I. destruct (extent m i j v Sy P I) as (Dv & P11 & Ph & E). cbv zeta in *. set (p01 := m i j - m i v * m j v / m v v) in *. set (p11 := m j j - m j v ^ 2 / m v v) in *. set (h := _ - p01 ^ 2 / p11) in *.
      destruct (Req_EM_T (m v v) 0); [lra|]. destruct (Req_EM_T p11 0); [lra|]. destruct (Rlt_dec 0 h); [|contradiction]. assert (S := sqrt_lt_R0 _ Ph). assert (S2 : 0 < sqrt (2 * ln 2)) by (apply sqrt_lt_R0; lra).
      assert (Q : sqrt h * sqrt h = h) by (apply sqrt_sqrt; lra). assert (Q2 : sqrt (2 * ln 2) * sqrt (2 * ln 2) = 2 * ln 2) by (apply sqrt_sqrt; lra). set (w := sqrt (2 * ln 2) / sqrt h). assert (Pw : 0 < w) by now apply Rdiv_lt_0_compat.
      assert (Hw : h * w ^ 2 = 2 * ln 2) by (rewrite <- Q at 1; rewrite <- Q2; unfold w; field; lra).
      exists w. split; auto. split; auto. split.
      - exists (place i j v w (- (p01 / p11 * w)) (- ((m i v * w + m j v * - (p01 / p11 * w)) / m v v))). split; [|unfold place; now rewrite Nat.eqb_refl]. rewrite E. rewrite <- Hw. ring.
      - intros x Hx. assert (Ex : quad 3 m x = quad 3 m (place i j v (x i) (x j) (x v))).
        { apply quad_ext; auto. intros k Lk. unfold place. cbn [In] in I. repeat (destruct I as [I|I]; [injection I as <- <- <-; destruct k as [|[|[|k]]]; try lia; reflexivity|]). contradiction. }
        rewrite Ex, E in Hx. assert (A := pow2_ge_0 (x j + p01 / p11 * x i)). assert (B := pow2_ge_0 (x v + (m i v * x i + m j v * x j) / m v v)).
        assert (A' := Rmult_le_pos _ _ (Rlt_le _ _ P11) A). assert (B' := Rmult_le_pos _ _ (Rlt_le _ _ Dv) B). assert (C : h * x i ^ 2 <= h * w ^ 2) by lra. apply Rmult_le_reg_l in C; auto.
        apply Rsqr_incr_0; [|apply Rabs_pos|lra]. rewrite <- Rsqr_abs. unfold Rsqr. cbn [pow] in C. rewrite !Rmult_1_r in C. exact C. }
    assert (C : i = 0%Z \/ i = 1%Z \/ i = 2%Z) by lia. unfold fproject. destruct C as [->|[->| ->]]; cbn [Z.eqb Z.to_nat Pos.to_nat Pos.iter_op].
    + destruct (K 0%nat 1%nat 2%nat) as (h & E & R); [now left|]. cbv zeta in E. exists h. rewrite E. split; [reflexivity|exact R].
    + destruct (K 1%nat 2%nat 0%nat) as (h & E & R); [right; now left|]. cbv zeta in E. exists h. rewrite E. split; [reflexivity|exact R].
    + destruct (K 2%nat 1%nat 0%nat) as (h & E & R); [right; right; now left|]. cbv zeta in E. exists h. rewrite E. split; [reflexivity|exact R].
  - intros N. unfold fproject. assert ((i =? 0)%Z = false /\ (i =? 1)%Z = false /\ (i =? 2)%Z = false) as (-> & -> & ->) by (repeat split; apply Z.eqb_neq; lia). reflexivity.
Qed.
Print Assumptions C58_extent.
Example C58_extent_ex : sym 3 ex3 /\ posdef 3 ex3.
Proof. split; [intros i j _ _; unfold ex3; now rewrite Nat.eqb_sym|apply ex3_posdef]. Qed.

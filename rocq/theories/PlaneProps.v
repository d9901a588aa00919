(** Two-dimensional profiles and the Voigt profile (C59). *)
From Coq Require Import String List Reals Lra Lia Psatz.
From Coquelicot Require Import Coquelicot.
From Verif Require Import Base FuncModel NumBounds Gauss FuncProps PeakProps.
Import ListNotations.
Local Open Scope R_scope.

(** Volume under a surface: integrate over x at every y, then over y. *)
Definition volume (g : R -> R -> R) (v : R) : Prop := exists h, (forall y, area (fun x => g x y) (h y)) /\ area h v.

(** C59.  Two-dimensional Gaussian: volume, half-maximum ellipse, maximum at the centre. *)
Theorem C59_gaussian2d : forall v cx cy wx wy, 0 < wx -> 0 < wy -> exists g : R -> R -> R,
  (forall b m x y, gaussian2d [b; m; v; cx; cy; wx; wy] x y = Ok (Some (b + m * (x + y) + g x y))) /\
  (forall x y, ((x - cx) / (wx / 2)) ^ 2 + ((y - cy) / (wy / 2)) ^ 2 = 1 -> g x y = g cx cy / 2) /\
  (0 < v -> forall x y, 0 < g x y /\ ((x, y) <> (cx, cy) -> g x y < g cx cy)) /\ volume g v.
Proof.
  intros v cx cy wx wy Px Py. assert (Sx := sigma_pos wx Px). assert (Sy := sigma_pos wy Py). assert (Qx := sigma_sq wx). assert (Qy := sigma_sq wy). set (sx := sigma_of wx) in *. set (sy := sigma_of wy) in *.
  assert (TP := PI_RGT_0). assert (L := ln2_pos). assert (Sp : 0 < sqrt (2 * PI)) by (apply sqrt_lt_R0; lra). assert (Sq : sqrt (2 * PI) * sqrt (2 * PI) = 2 * PI) by (apply sqrt_sqrt; lra).
  assert (Pxy : 0 < sx * sy) by now apply Rmult_lt_0_compat. set (k := v / (sx * sy * 2 * PI)).
  assert (Hx : 0 < 2 * sx ^ 2) by nra. assert (Hy : 0 < 2 * sy ^ 2) by nra.
  exists (fun x y => k * exp (- ((x - cx) ^ 2 / (2 * sx ^ 2) + (y - cy) ^ 2 / (2 * sy ^ 2)))). split; [|split; [|split]].
  - intros. unfold gaussian2d, peaks. cbn [List.length Nat.ltb Nat.leb Nat.sub]. change (5 / 5)%nat with 1%nat. cbn [seq fold_left]. unfold par. cbn [Nat.mul Nat.add nth]. fold sx sy. cbv zeta. destruct (Req_EM_T (sx * sy) 0); [lra|]. reflexivity.
  - intros x y E. replace (- ((x - cx) ^ 2 / (2 * sx ^ 2) + (y - cy) ^ 2 / (2 * sy ^ 2))) with (- ln 2).
    + replace (- ((cx - cx) ^ 2 / (2 * sx ^ 2) + (cy - cy) ^ 2 / (2 * sy ^ 2))) with 0 by (field; split; lra). rewrite exp_ln2, exp_0. unfold Rdiv. ring.
    + rewrite Qx, Qy. replace ((x - cx) ^ 2 / (2 * (wx ^ 2 / (8 * ln 2))) + (y - cy) ^ 2 / (2 * (wy ^ 2 / (8 * ln 2)))) with (ln 2 * (((x - cx) / (wx / 2)) ^ 2 + ((y - cy) / (wy / 2)) ^ 2)) by (field; repeat split; lra). rewrite E. ring.
  - intros Pv x y. assert (Pk : 0 < k) by (unfold k; apply Rdiv_lt_0_compat; auto; apply Rmult_lt_0_compat; lra). split; [apply Rmult_lt_0_compat; auto; apply exp_pos|]. intros N.
    apply Rmult_lt_compat_l; auto. apply exp_increasing. replace (- ((cx - cx) ^ 2 / (2 * sx ^ 2) + (cy - cy) ^ 2 / (2 * sy ^ 2))) with 0 by (field; split; lra).
    assert (A : 0 <= (x - cx) ^ 2 / (2 * sx ^ 2)) by (apply Rmult_le_pos; [apply pow2_ge_0|apply Rlt_le, Rinv_0_lt_compat; auto]). assert (B : 0 <= (y - cy) ^ 2 / (2 * sy ^ 2)) by (apply Rmult_le_pos; [apply pow2_ge_0|apply Rlt_le, Rinv_0_lt_compat; auto]).
    assert (Pos : forall u s, u <> 0 -> 0 < s -> 0 < u ^ 2 / s) by (intros u s Nu Ps; apply Rdiv_lt_0_compat; auto; apply Rsqr_pos_lt in Nu; unfold Rsqr in Nu; lra).
    destruct (Req_dec x cx) as [Ex|Ex]; [destruct (Req_dec y cy) as [Ey|Ey]; [congruence|]|].
    + assert (C := Pos (y - cy) (2 * sy ^ 2) ltac:(lra) Hy). lra.
    + assert (C := Pos (x - cx) (2 * sx ^ 2) ltac:(lra) Hx). lra.
  - exists (fun y => (v / (sy * sqrt (2 * PI))) * exp (- / 2 * (0 + / sy ^ 2 * (y + - cy) ^ 2))). split.
    + intros y. apply (area_ext (fun x => k * exp (- / 2 * (/ sy ^ 2 * (y + - cy) ^ 2 + / sx ^ 2 * (x + - cx) ^ 2)))); [intros x; do 2 f_equal; field; split; lra|].
      assert (A := area_gauss sx k (- cx) (/ sy ^ 2 * (y + - cy) ^ 2) Sx). rewrite Rplus_0_l. replace (v / (sy * sqrt (2 * PI))) with (sqrt (2 * PI) * sx * k); [exact A|].
      unfold k. replace (sx * sy * 2 * PI) with (sx * sy * (2 * PI)) by ring. rewrite <- Sq at 2. field. repeat split; lra.
    + assert (A := area_gauss sy (v / (sy * sqrt (2 * PI))) (- cy) 0 Sy). rewrite Rmult_0_r, exp_0 in A. assert (E : sqrt (2 * PI) * sy * (v / (sy * sqrt (2 * PI))) * 1 = v) by (field; split; lra). rewrite E in A. exact A.
Qed.
Print Assumptions C59_gaussian2d.
Example C59_gaussian2d_ex : 0 < 1 / 2 /\ 0 < 3. Proof. lra. Qed.

(** C59.  resolution: volume p[2], half maximum exactly on the contour x^T M x = 2 ln 2; R0 has no effect. *)
Theorem C59_resolution : forall v cx cy r0 xx yy xy, 0 < xx -> 0 < xx * yy - xy ^ 2 -> r0 <> 0 -> exists g : R -> R -> R,
  (forall b m r x y, r <> 0 -> resolution [b; m; v; cx; cy; r; xx; yy; xy] x y "gaussian" = Ok (Some (b + m * (x + y) + g x y))) /\
  (forall x y, xx * (x - cx) ^ 2 + 2 * xy * (x - cx) * (y - cy) + yy * (y - cy) ^ 2 = 2 * ln 2 -> g x y = g cx cy / 2) /\
  (v <> 0 -> forall x y, g x y = g cx cy / 2 -> xx * (x - cx) ^ 2 + 2 * xy * (x - cx) * (y - cy) + yy * (y - cy) ^ 2 = 2 * ln 2) /\ volume g v.
Proof.
  intros v cx cy r0 xx yy xy Px Pd Nr. assert (TP := PI_RGT_0). set (t := yy - xy ^ 2 / xx). assert (Et : t * xx = xx * yy - xy ^ 2) by (unfold t; field; lra). assert (Pt : 0 < t) by nra.
  assert (Sx := sqrt_lt_R0 _ Px). assert (St := sqrt_lt_R0 _ Pt). assert (Qx : sqrt xx * sqrt xx = xx) by (apply sqrt_sqrt; lra). assert (Qt : sqrt t * sqrt t = t) by (apply sqrt_sqrt; lra).
  assert (Sp : 0 < sqrt (2 * PI)) by (apply sqrt_lt_R0; lra). assert (Sq : sqrt (2 * PI) * sqrt (2 * PI) = 2 * PI) by (apply sqrt_sqrt; lra).
  set (k := v * (sqrt xx * sqrt t / (2 * PI))). set (Q := fun x y => xx * (x - cx) ^ 2 + yy * (y - cy) ^ 2 + 2 * xy * (x - cx) * (y - cy)).
  exists (fun x y => k * exp (-1 / 2 * Q x y)). split; [|split; [|split]].
  - intros b m r x y N. unfold resolution. cbn [String.eqb Ascii.eqb Bool.eqb]. unfold peaks. cbn [List.length Nat.ltb Nat.leb Nat.sub]. change (7 / 7)%nat with 1%nat. cbn [seq fold_left]. unfold par. cbn [Nat.mul Nat.add nth]. cbv zeta.
    destruct (Rlt_dec 0 xx); [|contradiction]. fold t. destruct (Rle_dec 0 t); [|lra]. destruct (Req_EM_T r 0); [contradiction|]. cbn [oplus]. do 2 f_equal. fold (Q x y). f_equal. unfold k. f_equal. field. split; lra.
  - intros x y E. replace (Q x y) with (2 * ln 2) by (unfold Q; lra). replace (Q cx cy) with 0 by (unfold Q; ring). replace (-1 / 2 * (2 * ln 2)) with (- ln 2) by field. rewrite exp_ln2, Rmult_0_r, exp_0. unfold Rdiv. ring.
  - intros Nv x y E. replace (Q cx cy) with 0 in E by (unfold Q; ring). rewrite Rmult_0_r, exp_0 in E.
    assert (Nk : k <> 0). { unfold k. apply Rmult_integral_contrapositive_currified; [exact Nv|]. apply Rgt_not_eq, Rdiv_lt_0_compat; [now apply Rmult_lt_0_compat|lra]. }
    assert (E2 : exp (-1 / 2 * Q x y) = / 2) by (apply (Rmult_eq_reg_l k); [rewrite E; field|exact Nk]). rewrite <- exp_ln2 in E2. apply exp_inv in E2. unfold Q in E2. lra.
  - set (sx := / sqrt xx). set (st := / sqrt t). assert (Ix : / sx ^ 2 = xx) by (unfold sx; rewrite <- Qx at 2; field; lra). assert (It : / st ^ 2 = t) by (unfold st; rewrite <- Qt at 2; field; lra). assert (Psx : 0 < sx) by now apply Rinv_0_lt_compat. assert (Pst : 0 < st) by now apply Rinv_0_lt_compat.
    exists (fun y => (sqrt (2 * PI) * sx * k) * exp (- / 2 * (0 + / st ^ 2 * (y + - cy) ^ 2))). split.
    + intros y. apply (area_ext (fun x => k * exp (- / 2 * (/ st ^ 2 * (y + - cy) ^ 2 + / sx ^ 2 * (x + (- cx + xy / xx * (y - cy))) ^ 2)))).
      * intros x. do 2 f_equal. rewrite Ix, It. unfold Q, t. field. lra.
      * rewrite Rplus_0_l. apply area_gauss. exact Psx.
    + assert (A := area_gauss st (sqrt (2 * PI) * sx * k) (- cy) 0 Pst). rewrite Rmult_0_r, exp_0 in A. assert (E : sqrt (2 * PI) * st * (sqrt (2 * PI) * sx * k) * 1 = v).
      { unfold k, st, sx. replace (sqrt (2 * PI) * / sqrt t * (sqrt (2 * PI) * / sqrt xx * (v * (sqrt xx * sqrt t / (2 * PI)))) * 1) with ((sqrt (2 * PI) * sqrt (2 * PI)) * v / (2 * PI)) by (field; repeat split; lra). rewrite Sq. field. lra. }
      rewrite E in A. exact A.
Qed.
Print Assumptions C59_resolution.
Example C59_resolution_ex : 0 < 2 /\ 0 < 2 * 3 - 1 ^ 2 /\ 5 <> 0. Proof. lra. Qed.
(** C59.  Any other mode gives the background only. *)
Theorem C59_mode : forall p x y mode, mode <> "gaussian"%string -> (2 <= List.length p)%nat -> resolution p x y mode = Ok (Some (nth 0 p 0 + nth 1 p 0 * (x + y))).
Proof.
  intros p x y mode N L. unfold resolution. apply String.eqb_neq in N. rewrite N. unfold peaks. assert (E : Nat.ltb (List.length p) 2 = false) by (apply Nat.ltb_ge; lia). rewrite E. f_equal.
  unfold par. generalize (nth 0 p 0 + nth 1 p 0 * (x + y)). intros r. generalize (seq 0 ((List.length p - 2) / 7)). intros l. induction l as [|i l IH]; cbn [fold_left]; auto. cbn [oplus]. rewrite Rplus_0_r. exact IH.
Qed.
Print Assumptions C59_mode.

(** C59.  Gaussian ring: a function of the elliptic radius with its maximum on the ring of radius r0, half maximum half a width
    inside and outside, and total volume p[2] (the area between the ellipses r and r + dr is 2 pi r dr / eccentricity). *)
Lemma erf_F z : erf z = 2 / sqrt PI * F z. Proof. reflexivity. Qed.
Lemma ring_integral s r0 : 0 < s -> is_lim (fun T => RInt (fun r => r * exp (- (r - r0) ^ 2 / (2 * s ^ 2))) 0 T) p_infty
  (exp (- r0 ^ 2 / (2 * s ^ 2)) * s ^ 2 + sqrt (PI / 2) * r0 * s * (1 + erf (r0 / (sqrt 2 * s)))).
Proof.
  intros Ps. assert (TP := PI_RGT_0). assert (S2 : 0 < sqrt 2) by (apply sqrt_lt_R0; lra). assert (Q2 : sqrt 2 * sqrt 2 = 2) by (apply sqrt_sqrt; lra). assert (SP : 0 < sqrt PI) by (apply sqrt_lt_R0; lra).
  set (u := / (sqrt 2 * s)). assert (Pu : 0 < u) by (apply Rinv_0_lt_compat, Rmult_lt_0_compat; auto). assert (U2 : u * u = / (2 * s ^ 2)) by (unfold u; rewrite <- Q2 at 3; field; split; lra).
  set (P := fun r => - s ^ 2 * exp (- (r - r0) ^ 2 / (2 * s ^ 2)) + r0 / u * F (u * (r - r0))).
  assert (Dv : forall r : R, is_derive P r (r * exp (- (r - r0) ^ 2 / (2 * s ^ 2)))).
  { intros r. unfold P. evar_last.
    - apply (is_derive_plus (fun r => - s ^ 2 * exp (- (r - r0) ^ 2 / (2 * s ^ 2))) (fun r => r0 / u * F (u * (r - r0)))).
      + instantiate (1 := (r - r0) * exp (- (r - r0) ^ 2 / (2 * s ^ 2))). auto_derive; auto. match goal with |- context [exp ?a] => set (E := exp a) end. match goal with |- context [exp ?a] => change (exp a) with E || replace (exp a) with E by (unfold E; f_equal; field; lra) end. field. lra.
      + apply is_derive_scal. apply (is_derive_comp F (fun r => u * (r - r0))); [apply F_derive|]. instantiate (1 := u). auto_derive; auto. ring.
    - unfold plus, scal. simpl. unfold mult. simpl. replace (ge (u * (r - r0))) with (exp (- (r - r0) ^ 2 / (2 * s ^ 2))).
      + set (X := exp (- (r - r0) ^ 2 / (2 * s ^ 2))). change ((r - r0) * X + r0 / u * (u * X) = r * X). clearbody X. field. lra.
      + unfold ge. f_equal. replace (u * (r - r0) * (u * (r - r0))) with ((u * u) * (r - r0) ^ 2) by ring. rewrite U2. unfold Rdiv. ring. }
  assert (I : forall T, RInt (fun r => r * exp (- (r - r0) ^ 2 / (2 * s ^ 2))) 0 T = P T - P 0).
  { intros T. apply is_RInt_unique. apply (is_RInt_derive P); [intros; apply Dv|]. intros z _. apply (ex_derive_continuous (fun r => r * exp (- (r - r0) ^ 2 / (2 * s ^ 2)))). auto_derive. auto. }
  apply (is_lim_ext (fun T => P T - P 0)); [intros; symmetry; apply I|].
  assert (LF : is_lim (fun T => F (u * (T - r0))) p_infty (sqrt PI / 2)).
  { apply (is_lim_comp F (fun T => u * (T - r0)) p_infty (sqrt PI / 2) p_infty); [apply F_lim| |exists 0; intros; discriminate]. intros A [M HM]. exists (M / u + r0). intros z Lz. apply HM. apply (Rmult_lt_reg_l (/ u)); [now apply Rinv_0_lt_compat|]. replace (/ u * (u * (z - r0))) with (z - r0) by (field; lra). unfold Rdiv in Lz. lra. }
  assert (LE : is_lim (fun T => exp (- (T - r0) ^ 2 / (2 * s ^ 2))) p_infty 0).
  { apply (is_lim_le_le_loc (fun _ => 0) (fun T => exp (- T))); [|apply is_lim_const|apply (is_lim_comp exp (fun x => - x) p_infty 0 m_infty); [apply is_lim_exp_m|apply (is_lim_opp (fun x => x) p_infty p_infty), is_lim_id|exists 0; intros; discriminate]].
    exists (Rmax 1 (2 * Rabs r0 + 8 * s ^ 2)). intros T HT. assert (T1 := Rle_lt_trans _ _ _ (Rmax_l _ _) HT). assert (T2 := Rle_lt_trans _ _ _ (Rmax_r _ _) HT). split; [apply Rlt_le, exp_pos|]. apply Rlt_le, exp_increasing.
    assert (Ps2 : 0 < s ^ 2) by (apply pow_lt; auto). apply (Rmult_lt_reg_r (2 * s ^ 2)); [lra|]. replace (- (T - r0) ^ 2 / (2 * s ^ 2) * (2 * s ^ 2)) with (- (T - r0) ^ 2) by (field; lra). assert (Ar := Rle_abs r0). assert (Br := Rle_abs (- r0)). rewrite Rabs_Ropp in Br.
    assert (H : T / 2 < T - r0) by lra. assert (H2 : T / 2 * (T / 2) < (T - r0) * (T - r0)) by (apply Rmult_le_0_lt_compat; lra). nra. }
  replace (exp (- r0 ^ 2 / (2 * s ^ 2)) * s ^ 2 + sqrt (PI / 2) * r0 * s * (1 + erf (r0 / (sqrt 2 * s)))) with (- s ^ 2 * 0 + r0 / u * (sqrt PI / 2) - P 0).
  - apply (is_lim_minus P (fun _ => P 0) p_infty (- s ^ 2 * 0 + r0 / u * (sqrt PI / 2)) (P 0)); [|apply is_lim_const|reflexivity]. unfold P.
    apply (is_lim_plus (fun r => - s ^ 2 * exp (- (r - r0) ^ 2 / (2 * s ^ 2))) (fun r => r0 / u * F (u * (r - r0))) p_infty (- s ^ 2 * 0) (r0 / u * (sqrt PI / 2))); [apply (is_lim_scal_l _ _ _ 0), LE|apply (is_lim_scal_l _ _ _ (sqrt PI / 2)), LF|reflexivity].
  - unfold P. replace (- (0 - r0) ^ 2 / (2 * s ^ 2)) with (- r0 ^ 2 / (2 * s ^ 2)) by (unfold Rdiv; ring). replace (u * (0 - r0)) with (- (u * r0)) by ring. rewrite F_odd. rewrite erf_F. replace (r0 / (sqrt 2 * s)) with (u * r0) by (unfold u, Rdiv; ring).
    assert (E : sqrt (PI / 2) = sqrt PI / sqrt 2) by (apply sqrt_div; lra). rewrite E. unfold u. replace (r0 / / (sqrt 2 * s)) with (r0 * (sqrt 2 * s)) by (field; split; lra).
    generalize (F (/ (sqrt 2 * s) * r0)). intros f. generalize (exp (- r0 ^ 2 / (2 * s ^ 2))). intros e.
    replace (r0 * (sqrt 2 * s) * (sqrt PI / 2)) with (sqrt PI / sqrt 2 * r0 * s) by (replace (r0 * (sqrt 2 * s) * (sqrt PI / 2)) with (r0 * s * sqrt PI * (sqrt 2 * sqrt 2) / (2 * sqrt 2)) by (field; lra); rewrite Q2; field; lra).
    replace (sqrt PI / sqrt 2 * r0 * s * (1 + 2 / sqrt PI * f)) with (sqrt PI / sqrt 2 * r0 * s + 2 / sqrt 2 * r0 * s * f) by (field; split; lra). replace (2 / sqrt 2) with (sqrt 2) by (rewrite <- Q2 at 2; field; lra). ring.
Qed.
Theorem C59_ring : forall v cx cy r0 ecc w, 0 < w -> 0 < ecc -> 0 <= r0 -> exists rho : R -> R,
  (forall b m x y, gaussian_ring [b; m; v; cx; cy; r0; ecc; w] x y = Ok (Some (b + m * (x + y) + rho (sqrt ((x - cx) ^ 2 + (ecc * (y - cy)) ^ 2))))) /\
  rho (r0 - w / 2) = rho r0 / 2 /\ rho (r0 + w / 2) = rho r0 / 2 /\ (0 < v -> forall r, r <> r0 -> 0 < rho r < rho r0) /\
  is_lim (fun T => RInt (fun r => 2 * PI * r / ecc * rho r) 0 T) p_infty v.
Proof.
  intros v cx cy r0 ecc w Pw Pe Pr. assert (Ps := sigma_pos w Pw). assert (L := ln2_pos). assert (TP := PI_RGT_0). assert (S2 := sigma_sq w). assert (I := ring_integral (sigma_of w) r0 Ps). set (s := sigma_of w) in *.
  set (K := exp (- r0 ^ 2 / (2 * s ^ 2)) * s ^ 2 + sqrt (PI / 2) * r0 * s * (1 + erf (r0 / (sqrt 2 * s)))) in *.
  assert (PK : 0 < K).
  { unfold K. assert (A : 0 < exp (- r0 ^ 2 / (2 * s ^ 2)) * s ^ 2) by (apply Rmult_lt_0_compat; [apply exp_pos|apply pow_lt; auto]). assert (B := sqrt_pos (PI / 2)). assert (SP : 0 < sqrt PI) by (apply sqrt_lt_R0; lra). assert (S22 : 0 < sqrt 2) by (apply sqrt_lt_R0; lra).
    assert (C : 0 <= erf (r0 / (sqrt 2 * s))). { rewrite erf_F. apply Rmult_le_pos; [apply Rlt_le, Rdiv_lt_0_compat; lra|]. apply F_pos. apply Rmult_le_pos; auto. apply Rlt_le, Rinv_0_lt_compat, Rmult_lt_0_compat; auto. }
    assert (D : 0 <= sqrt (PI / 2) * r0 * s * (1 + erf (r0 / (sqrt 2 * s)))) by (apply Rmult_le_pos; [apply Rmult_le_pos; [apply Rmult_le_pos|]|]; lra). lra. }
  exists (fun r => v / (2 * PI * K / ecc) * exp (-4 * ln 2 * (r - r0) ^ 2 / w ^ 2)). assert (Pn : 0 < 2 * PI * K / ecc) by (apply Rdiv_lt_0_compat; auto; apply Rmult_lt_0_compat; lra).
  assert (Pw2 := pow_lt w 2 Pw). split; [|split; [|split; [|split]]].
  - intros. unfold gaussian_ring, peaks. cbn [List.length Nat.ltb Nat.leb Nat.sub]. change (6 / 6)%nat with 1%nat. cbn [seq fold_left]. unfold par. cbn [Nat.mul Nat.add nth]. cbv zeta. fold s. destruct (Req_EM_T s 0); [lra|]. destruct (Req_EM_T ecc 0); [lra|]. fold K. destruct (Req_EM_T (2 * PI * K / ecc) 0); [lra|].
    cbn [oplus]. do 6 f_equal. rewrite Rpow_mult_distr. reflexivity.
  - replace (-4 * ln 2 * (r0 - w / 2 - r0) ^ 2 / w ^ 2) with (- ln 2) by (field; lra). replace (-4 * ln 2 * (r0 - r0) ^ 2 / w ^ 2) with 0 by (field; lra). rewrite exp_ln2, exp_0. unfold Rdiv. ring.
  - replace (-4 * ln 2 * (r0 + w / 2 - r0) ^ 2 / w ^ 2) with (- ln 2) by (field; lra). replace (-4 * ln 2 * (r0 - r0) ^ 2 / w ^ 2) with 0 by (field; lra). rewrite exp_ln2, exp_0. unfold Rdiv. ring.
  - intros Pv r N. assert (A : 0 < v / (2 * PI * K / ecc)) by now apply Rdiv_lt_0_compat. split; [apply Rmult_lt_0_compat; auto; apply exp_pos|]. apply Rmult_lt_compat_l; auto. apply exp_increasing. replace (-4 * ln 2 * (r0 - r0) ^ 2 / w ^ 2) with 0 by (field; lra).
    assert (B : 0 < (r - r0) ^ 2 / w ^ 2). { apply Rdiv_lt_0_compat; auto. assert (X : r - r0 <> 0) by lra. apply Rsqr_pos_lt in X. unfold Rsqr in X. lra. } unfold Rdiv in *. nra.
  - assert (Ev : Finite v = Finite (v / K * K)) by (f_equal; field; lra). rewrite Ev. apply (is_lim_ext (fun T => v / K * RInt (fun r => r * exp (- (r - r0) ^ 2 / (2 * s ^ 2))) 0 T)).
    + intros T. rewrite <- RIs by (apply (@ex_RInt_continuous R_CompleteNormedModule); intros z _; apply (ex_derive_continuous (fun r => r * exp (- (r - r0) ^ 2 / (2 * s ^ 2)))); auto_derive; auto).
      apply RIe. intros r. replace (-4 * ln 2 * (r - r0) ^ 2 / w ^ 2) with (- (r - r0) ^ 2 / (2 * s ^ 2)) by (rewrite S2; field; split; lra). generalize (exp (- (r - r0) ^ 2 / (2 * s ^ 2))). intros e. clear - Pe PK TP. field. repeat split; lra.
    + apply (is_lim_scal_l _ (v / K) p_infty K), I.
Qed.
Print Assumptions C59_ring.
Example C59_ring_ex : 0 < 1 / 2 /\ 0 < 2 /\ 0 <= 3. Proof. lra. Qed.

(** ** Voigt profile *)
Lemma increasing_lim (f : R -> R) M : (forall x y, 0 <= x <= y -> f x <= f y) -> (forall x, 0 <= x -> f x <= M) -> exists l : R, is_lim f p_infty l.
Proof.
  intros Inc Bd. set (E := fun v => exists x, 0 <= x /\ v = f x). destruct (completeness E) as [l [U Lb]].
  - exists M. intros v [x [Hx ->]]. now apply Bd.
  - exists (f 0), 0. split; [lra|auto].
  - exists l. apply is_lim_spec. intros eps. cbn. assert (Pe := cond_pos eps).
    assert (X : exists x, 0 <= x /\ l - eps < f x).
    { destruct (Classical_Prop.classic (exists x, 0 <= x /\ l - eps < f x)) as [Y|N]; auto. exfalso. assert (B : l <= l - eps); [|lra]. apply Lb. intros v [x [Hx ->]]. destruct (Rlt_dec (l - eps) (f x)) as [Y|Y]; [|lra]. exfalso. apply N. exists x. auto. }
    destruct X as [x [Hx Lx]]. exists x. intros y Hy. assert (A := Inc x y ltac:(lra)). assert (B : f y <= l) by (apply U; exists y; split; [lra|auto]). apply Rabs_lt_between. lra.
Qed.
Lemma RIc (f : R -> R) a b c : ex_RInt f a b -> ex_RInt f b c -> RInt f a c = RInt f a b + RInt f b c.
Proof. intros A B. symmetry. exact (RInt_Chasles f a b c A B). Qed.
Lemma RIo (f : R -> R) a b : ex_RInt f a b -> RInt f b a = - RInt f a b.
Proof. intros A. symmetry. exact (opp_RInt_swap f a b A). Qed.
Definition wofz_kernel (x y t : R) : R := y / PI * exp (- (t * t)) / ((x - t) ^ 2 + y ^ 2).
Lemma kernel_pos x y t : 0 < y -> 0 < (x - t) ^ 2 + y ^ 2. Proof. intros P. assert (A := pow2_ge_0 (x - t)). assert (B := pow_lt y 2 P). lra. Qed.
Lemma kernel_int x y a b : 0 < y -> ex_RInt (wofz_kernel x y) a b.
Proof. intros P. apply (@ex_RInt_continuous R_CompleteNormedModule). intros z _. apply (ex_derive_continuous (wofz_kernel x y)). unfold wofz_kernel. auto_derive. assert (K := kernel_pos x y z P). nra. Qed.
Lemma kernel_bound x y t : 0 < y -> 0 <= wofz_kernel x y t <= / (PI * y) * ge t.
Proof.
  intros P. assert (TP := PI_RGT_0). assert (K := kernel_pos x y t P). assert (A := pow2_ge_0 (x - t)). assert (Py := pow_lt y 2 P). unfold wofz_kernel, ge. assert (E := exp_pos (- (t * t))). set (e := exp (- (t * t))) in *.
  assert (I : / ((x - t) ^ 2 + y ^ 2) <= / y ^ 2) by (apply Rinv_le_contravar; lra). assert (J := Rinv_0_lt_compat _ K). replace (/ (PI * y) * e) with (y / PI * e * / y ^ 2) by (field; split; lra). assert (C : 0 < y / PI * e) by (apply Rmult_lt_0_compat; auto; now apply Rdiv_lt_0_compat). unfold Rdiv at 1 3. split; [nra|]. apply Rmult_le_compat_l; lra.
Qed.
Lemma wofz_lim x y : 0 < y -> area (wofz_kernel x y) (re_wofz x y).
Proof.
  intros P. assert (TP := PI_RGT_0). unfold area. set (h := fun T => RInt (wofz_kernel x y) (- T) T).
  assert (G : forall a b, ex_RInt ge a b) by (intros; apply (@ex_RInt_continuous R_CompleteNormedModule); intros; apply ge_cont).
  assert (X : exists l : R, is_lim h p_infty l).
  { apply (increasing_lim h (/ (PI * y) * sqrt PI)).
    - intros a b Hab. unfold h. rewrite (RIc _ (- b) (- a) b), (RIc _ (- a) a b) by now apply kernel_int.
      assert (A1 : 0 <= RInt (wofz_kernel x y) (- b) (- a)) by (apply RInt_ge_0; [lra|apply kernel_int; auto|intros; now apply kernel_bound]). assert (A2 : 0 <= RInt (wofz_kernel x y) a b) by (apply RInt_ge_0; [lra|apply kernel_int; auto|intros; now apply kernel_bound]). lra.
    - intros T HT. unfold h. apply Rle_trans with (RInt (fun t => / (PI * y) * ge t) (- T) T).
      + apply RInt_le; [lra|apply kernel_int; auto| |intros; now apply kernel_bound]. apply (@ex_RInt_continuous R_CompleteNormedModule). intros z _. apply (ex_derive_continuous (fun t => / (PI * y) * ge t)). unfold ge. auto_derive. auto.
      + rewrite RIs by apply G. apply Rmult_le_compat_l; [apply Rlt_le, Rinv_0_lt_compat, Rmult_lt_0_compat; lra|]. rewrite (RIc _ (- T) 0 T), (RIo _ 0 (- T)) by apply G. change (RInt ge 0 T) with (F T). change (RInt ge 0 (- T)) with (F (- T)). rewrite F_odd.
        assert (B : F T * F T <= PI / 4) by (assert (H1 := FG T); assert (H2 := G_bounds T); lra). assert (Q : sqrt PI * sqrt PI = PI) by (apply sqrt_sqrt; lra). assert (Z := F_pos T HT). assert (Y := sqrt_pos PI). nra. }
  destruct X as [l Hl]. assert (E : re_wofz x y = l) by (unfold re_wofz; change (fun t : R => y / PI * exp (- (t * t)) / ((x - t) ^ 2 + y ^ 2)) with (wofz_kernel x y); fold h; now rewrite (is_lim_unique _ _ _ Hl)). now rewrite E.
Qed.
(** C59.  For positive widths voigt is the area times the convolution of the unit Gaussian and the unit Lorentzian of the given full widths. *)
Theorem C59_voigt : forall v c wl wg, 0 < wl -> 0 < wg -> exists (G L g : R -> R),
  (forall t, gaussian [0; 0; 1; 0; wg] t = Ok (Some (G t)) /\ lorentzian [0; 0; 1; 0; wl] t = Ok (Some (L t))) /\
  (forall d, area (fun t => G t * L (d - t)) (g d)) /\ (forall b m q, voigt [b; m; v; c; wl; wg] q = Ok (Some (b + m * q + v * g (q - c)))) /\
  (forall d, g (- d) = g d).
Proof.
  intros v c wl wg Pl Pg. destruct (C37_gaussian 1 0 wg Pg) as [G [HG [_ [SG _]]]]. destruct (C37_lorentzian 1 0 wl Pl) as [L [HL [_ [SL _]]]]. assert (Ps := sigma_pos wg Pg). assert (TP := PI_RGT_0).
  assert (Inj : forall a b : R, @Ok (option R) (Some a) = Ok (Some b) -> a = b) by (intros a b E; now injection E).
  assert (EG : forall t, G t = 1 / (sigma_of wg * sqrt (2 * PI)) * exp (- t ^ 2 / (2 * sigma_of wg ^ 2))).
  { intros t. specialize (HG 0 0 t). unfold gaussian, peaks in HG. cbn [List.length Nat.ltb Nat.leb Nat.sub] in HG. change (3 / 3)%nat with 1%nat in HG. cbn [seq fold_left] in HG. unfold par in HG. cbn [Nat.mul Nat.add nth] in HG. cbv zeta in HG. destruct (Req_EM_T (sigma_of wg) 0); [lra|]. cbn [oplus] in HG. assert (H := Inj _ _ HG). rewrite Rminus_0_r in H. lra. }
  assert (EL : forall t, L t = wl / 2 / PI / (t ^ 2 + (wl / 2) ^ 2)).
  { intros t. specialize (HL 0 0 t). unfold lorentzian, peaks in HL. cbn [List.length Nat.ltb Nat.leb Nat.sub] in HL. change (3 / 3)%nat with 1%nat in HL. cbn [seq fold_left] in HL. unfold par, odiv in HL. cbn [Nat.mul Nat.add nth] in HL. rewrite Rminus_0_r in HL. assert (Z := kernel_pos t (1 / 2 * wl) 0 ltac:(lra)). rewrite Rminus_0_r in Z. destruct (Req_EM_T (t ^ 2 + (1 / 2 * wl) ^ 2) 0); [lra|]. cbn [oplus] in HL. assert (H := Inj _ _ HL).
    assert (U : 1 / PI * (1 / 2) * wl / (t ^ 2 + (1 / 2 * wl) ^ 2) = L t) by lra. rewrite <- U. replace (1 / 2 * wl) with (wl / 2) in * by field. field. split; lra. }
  set (s := sigma_of wg) in *. assert (S2 : 0 < sqrt 2) by (apply sqrt_lt_R0; lra). assert (Q2 : sqrt 2 * sqrt 2 = 2) by (apply sqrt_sqrt; lra). assert (Sp : 0 < sqrt (2 * PI)) by (apply sqrt_lt_R0; lra).
  set (k := s * sqrt 2). assert (Pk : 0 < k) by now apply Rmult_lt_0_compat. assert (K2 : k * k = 2 * s ^ 2) by (unfold k; replace (s * sqrt 2 * (s * sqrt 2)) with (sqrt 2 * sqrt 2 * s ^ 2) by ring; now rewrite Q2).
  set (g := fun d => / (s * sqrt (2 * PI)) * re_wofz (d / k) (wl / 2 / k)). assert (Py : 0 < wl / 2 / k) by (apply Rdiv_lt_0_compat; lra). exists G, L, g.
  assert (A : forall d, area (fun t => G t * L (d - t)) (g d)).
  { intros d. unfold area, g. apply (is_lim_ext (fun T => / (s * sqrt (2 * PI)) * RInt (wofz_kernel (d / k) (wl / 2 / k)) (- (/ k * T)) (/ k * T))).
    - intros T. assert (Lin := RIl (wofz_kernel (d / k) (wl / 2 / k)) (/ k) 0 (- T) T). rewrite !Rplus_0_r in Lin. replace (- (/ k * T)) with (/ k * - T) by ring. rewrite <- Lin by (apply kernel_int; auto). rewrite <- RIs.
      + apply RIe. intros t. unfold wofz_kernel. rewrite Rplus_0_r, EG, EL. replace (- (/ k * t * (/ k * t))) with (- t ^ 2 / (k * k)) by (field; lra). rewrite K2. assert (D1 := kernel_pos d (wl / 2) t ltac:(lra)). assert (D2 := kernel_pos (d / k) (wl / 2 / k) (/ k * t) Py).
        replace ((d / k - / k * t) ^ 2 + (wl / 2 / k) ^ 2) with (((d - t) ^ 2 + (wl / 2) ^ 2) / (k * k)) by (field; lra). clear - D1 Pk Ps Sp TP. generalize (exp (- t ^ 2 / (2 * s ^ 2))). intros e. set (D := (d - t) ^ 2 + (wl / 2) ^ 2) in *. clearbody D. field. repeat split; lra.
      + apply (@ex_RInt_continuous R_CompleteNormedModule). intros z _. apply (ex_derive_continuous (fun t => / k * wofz_kernel (d / k) (wl / 2 / k) (/ k * t + 0))). unfold wofz_kernel. auto_derive. assert (D2 := kernel_pos (d / k) (wl / 2 / k) (/ k * z + 0) Py). nra.
    - apply (is_lim_scal_l _ (/ (s * sqrt (2 * PI))) p_infty (re_wofz (d / k) (wl / 2 / k))). apply (is_lim_comp (fun T => RInt (wofz_kernel (d / k) (wl / 2 / k)) (- T) T) (fun T => / k * T) p_infty _ p_infty); [now apply wofz_lim| |exists 0; intros; discriminate].
      intros Pr [M HM]. exists (M * k). intros z Lz. apply HM. apply (Rmult_lt_compat_l (/ k)) in Lz; [|now apply Rinv_0_lt_compat]. replace (/ k * (M * k)) with M in Lz by (field; lra). exact Lz. }
  split; [|split; [exact A|split]].
  - intros t. split; [rewrite HG|rewrite HL]; do 2 f_equal; ring.
  - intros b m q. unfold voigt, peaks. cbn [List.length Nat.ltb Nat.leb Nat.sub]. change (4 / 4)%nat with 1%nat. cbn [seq fold_left]. unfold par. cbn [Nat.mul Nat.add nth]. cbv zeta. fold s. destruct (Rlt_dec 0 s); [|lra]. destruct (Rlt_dec 0 (wl / 2)); [|lra]. cbn [oplus]. do 3 f_equal. unfold g, k, Rdiv. ring.
  - intros d. assert (A1 := A d). assert (A2 := A (- d)). unfold area in *.
    assert (X : is_lim (fun T => RInt (fun t => G t * L (- d - t)) (- T) T) p_infty (g d)).
    { revert A1. apply is_lim_ext. intros T. assert (Cont : forall e a b, ex_RInt (fun t => G t * L (e - t)) a b).
      { intros e a b. apply (@ex_RInt_continuous R_CompleteNormedModule). intros z _. apply (continuous_ext (fun t => 1 / (s * sqrt (2 * PI)) * exp (- t ^ 2 / (2 * s ^ 2)) * (wl / 2 / PI / ((e - t) ^ 2 + (wl / 2) ^ 2)))); [intros t; rewrite EG, EL; reflexivity|]. apply (ex_derive_continuous (fun t => 1 / (s * sqrt (2 * PI)) * exp (- t ^ 2 / (2 * s ^ 2)) * (wl / 2 / PI / ((e - t) ^ 2 + (wl / 2) ^ 2)))). auto_derive. assert (D := kernel_pos e (wl / 2) z ltac:(lra)). nra. }
      assert (Lin := RIl (fun t => G t * L (- d - t)) (-1) 0 (- T) T). replace (-1 * - T + 0) with T in Lin by ring. replace (-1 * T + 0) with (- T) in Lin by ring. rewrite (RIo (fun t => G t * L (- d - t)) T (- T)), <- Lin by apply Cont.
      rewrite (RIe (fun t => -1 * (G (-1 * t + 0) * L (- d - (-1 * t + 0)))) (fun t => -1 * (G t * L (d - t)))).
      - rewrite (RIs (fun t => G t * L (d - t))) by apply Cont. assert (Y : forall X : R, X = - (-1 * X)) by (intros; ring). apply Y.
      - intros t. replace (-1 * t + 0) with (0 - t) by ring. rewrite <- SG. replace (- d - (0 - t)) with (0 - (d - t)) by ring. rewrite <- SL. rewrite !Rplus_0_l. reflexivity. }
    apply is_lim_unique in A2. apply is_lim_unique in X. rewrite A2 in X. now inversion X.
Qed.
Print Assumptions C59_voigt.
Example C59_voigt_ex : 0 < 1 / 2 /\ 0 < 3. Proof. lra. Qed.
(** C59.  A parameter list without both background parameters is rejected. *)
Theorem C59_short : forall p x y mode, (List.length p < 2)%nat -> gaussian p x = Err IndexError /\ lorentzian p x = Err IndexError /\ voigt p x = Err IndexError /\ gaussian2d p x y = Err IndexError /\ resolution p x y mode = Err IndexError /\ gaussian_ring p x y = Err IndexError.
Proof. intros p x y mode L. unfold resolution, gaussian, lorentzian, voigt, gaussian2d, gaussian_ring, peaks. apply Nat.ltb_lt in L. rewrite L. destruct (String.eqb mode "gaussian"); repeat split. Qed.
Print Assumptions C59_short.

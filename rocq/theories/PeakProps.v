(** Shape and area of single peaks (C37). *)
From Coq Require Import String List Reals Lra Lia Psatz.
From Coquelicot Require Import Coquelicot.
From Verif Require Import Base FuncModel NumBounds Gauss FuncProps.
Import ListNotations.
Local Open Scope R_scope.

Lemma ln2_pos : 0 < ln 2. Proof. assert (L := ln2_bounds). lra. Qed.
Lemma exp_ln2 : exp (- ln 2) = / 2. Proof. rewrite exp_Ropp, exp_ln by lra. reflexivity. Qed.
Lemma sigma_sq w : sigma_of w ^ 2 = w ^ 2 / (8 * ln 2).
Proof.
  assert (L := ln2_pos). unfold sigma_of. assert (S : 0 < sqrt (2 * ln 2)) by (apply sqrt_lt_R0; lra). assert (Q : sqrt (2 * ln 2) * sqrt (2 * ln 2) = 2 * ln 2) by (apply sqrt_sqrt; lra).
  replace (8 * ln 2) with (4 * (sqrt (2 * ln 2) * sqrt (2 * ln 2))) by (rewrite Q; ring). field. lra.
Qed.
Lemma sigma_pos w : 0 < w -> 0 < sigma_of w.
Proof. intros P. assert (L := ln2_pos). unfold sigma_of. apply Rdiv_lt_0_compat; auto. assert (0 < sqrt (2 * ln 2)) by (apply sqrt_lt_R0; lra). lra. Qed.
Definition area (g : R -> R) (a : R) : Prop := is_lim (fun T => RInt g (- T) T) p_infty a.
Lemma area_gauss s r c q0 : 0 < s -> area (fun t => r * exp (- / 2 * (q0 + / s ^ 2 * (t + c) ^ 2))) (sqrt (2 * PI) * s * r * exp (- / 2 * q0)).
Proof.
  intros P. unfold area. assert (Ps : 0 < / s ^ 2) by (apply Rinv_0_lt_compat; nra). replace (sqrt (2 * PI) * s) with (sqrt (2 * PI / / s ^ 2)); [apply gauss_integral; auto|].
  assert (TP := PI_RGT_0). replace (2 * PI / / s ^ 2) with (2 * PI * (s * s)) by (field; lra). rewrite sqrt_mult, sqrt_square; try nra.
Qed.
Lemma area_ext f g a : (forall t, f t = g t) -> area f a -> area g a.
Proof. intros E. unfold area. apply is_lim_ext. intros T. apply RInt_ext. intros; apply E. Qed.

(** What a user reads off a peak with area a, centre c and full width w. *)
Definition profile (f : list R -> R -> res (option R)) : Prop := forall a c w, 0 < w -> exists g : R -> R,
  (forall b m q, f [b; m; a; c; w] q = Ok (Some (b + m * q + g q))) /\ (forall s b m q, f [b; m; s * a; c; w] q = Ok (Some (b + m * q + s * g q))) /\
  (forall d, g (c + d) = g (c - d)) /\ g (c + w / 2) = g c / 2 /\ (0 < a -> forall d d', Rabs d < Rabs d' -> 0 < g (c + d') < g (c + d)) /\ area g a.
Theorem C37_gaussian : profile gaussian.
Proof.
  intros a c w Pw. assert (Ps := sigma_pos w Pw). assert (L := ln2_pos). assert (TP := PI_RGT_0). assert (S2 := sigma_sq w). set (s := sigma_of w) in *. assert (Sp : 0 < sqrt (2 * PI)) by (apply sqrt_lt_R0; lra).
  exists (fun q => a / (s * sqrt (2 * PI)) * exp (- (q - c) ^ 2 / (2 * s ^ 2))).
  assert (V : forall a b m q, gaussian [b; m; a; c; w] q = Ok (Some (b + m * q + a / (s * sqrt (2 * PI)) * exp (- (q - c) ^ 2 / (2 * s ^ 2))))).
  { intros. unfold gaussian, peaks. cbn [List.length Nat.ltb Nat.leb Nat.sub]. change (3 / 3)%nat with 1%nat. cbn [seq fold_left]. unfold par. cbn [Nat.mul Nat.add nth]. fold s. cbv zeta. destruct (Req_EM_T s 0); [lra|]. reflexivity. }
  assert (H0 : 0 < 2 * s ^ 2) by nra. split; [intros; apply V|]. split; [intros; rewrite V; do 2 f_equal; unfold Rdiv; ring|]. split; [|split; [|split]].
  - intros d. do 2 f_equal. unfold Rdiv. f_equal. ring.
  - replace (- (c + w / 2 - c) ^ 2 / (2 * s ^ 2)) with (- ln 2) by (rewrite S2; field; split; lra). replace (- (c - c) ^ 2 / (2 * s ^ 2)) with 0 by (field; lra). rewrite exp_ln2, exp_0. field. split; lra.
  - intros Pa d d' Hd. assert (K : 0 < a / (s * sqrt (2 * PI))) by (apply Rdiv_lt_0_compat; auto; now apply Rmult_lt_0_compat). split; [apply Rmult_lt_0_compat; auto; apply exp_pos|].
    apply Rmult_lt_compat_l; auto. apply exp_increasing. unfold Rdiv. apply Rmult_lt_compat_r; [now apply Rinv_0_lt_compat|]. apply Rsqr_lt_abs_1 in Hd. unfold Rsqr in Hd. nra.
  - apply (area_ext (fun t => a / (s * sqrt (2 * PI)) * exp (- / 2 * (0 + / s ^ 2 * (t + - c) ^ 2)))).
    + intros t. do 2 f_equal. field. lra.
    + assert (A := area_gauss s (a / (s * sqrt (2 * PI))) (- c) 0 Ps). rewrite Rmult_0_r, exp_0 in A. assert (E : sqrt (2 * PI) * s * (a / (s * sqrt (2 * PI))) * 1 = a) by (field; split; lra). rewrite E in A. exact A.
Qed.
Print Assumptions C37_gaussian.
Lemma atan_lim : is_lim atan p_infty (PI / 2).
Proof.
  apply is_lim_spec. intros eps. cbn. assert (TP := PI_RGT_0). assert (Pe := cond_pos eps). set (e := Rmin eps (PI / 4)). assert (He : 0 < e <= PI / 4 /\ e <= eps) by (unfold e; repeat split; [apply Rmin_pos; lra|apply Rmin_r|apply Rmin_l]).
  exists (tan (PI / 2 - e)). intros x L. apply atan_increasing in L. rewrite atan_tan in L by lra. assert (B := atan_bound x). rewrite Rabs_left by lra. lra.
Qed.
Theorem C37_lorentzian : profile lorentzian.
Proof.
  intros a c w Pw. assert (TP := PI_RGT_0). set (h := 1 / 2 * w). assert (Ph : 0 < h) by (unfold h; lra).
  assert (Dh := pow_lt h 2 Ph). assert (D : forall q, 0 < (q - c) ^ 2 + h ^ 2) by (intros q; assert (X := pow2_ge_0 (q - c)); lra).
  exists (fun q => a / PI * (1 / 2) * w / ((q - c) ^ 2 + h ^ 2)).
  assert (V : forall a b m q, lorentzian [b; m; a; c; w] q = Ok (Some (b + m * q + a / PI * (1 / 2) * w / ((q - c) ^ 2 + h ^ 2)))).
  { intros. unfold lorentzian, peaks. cbn [List.length Nat.ltb Nat.leb Nat.sub]. change (3 / 3)%nat with 1%nat. cbn [seq fold_left]. unfold par, odiv. cbn [Nat.mul Nat.add nth]. fold h. destruct (Req_EM_T ((q - c) ^ 2 + h ^ 2) 0) as [Z|_]; [specialize (D q); lra|]. reflexivity. }
  split; [intros; apply V|]. split; [intros; rewrite V; do 2 f_equal; unfold Rdiv; ring|]. split; [|split; [|split]].
  - intros d. f_equal. ring.
  - replace (c + w / 2 - c) with h by (unfold h; field). replace (c - c) with 0 by ring. field. split; nra.
  - intros Pa d d' Hd. assert (K : 0 < a / PI * (1 / 2) * w) by (apply Rmult_lt_0_compat; auto; apply Rmult_lt_0_compat; [apply Rdiv_lt_0_compat; auto|lra]). split; [apply Rdiv_lt_0_compat; auto|].
    unfold Rdiv. apply Rmult_lt_compat_l; auto. apply Rinv_lt_contravar; [apply Rmult_lt_0_compat; apply D|]. apply Rsqr_lt_abs_1 in Hd. unfold Rsqr in Hd. nra.
  - unfold area.
    assert (I : forall T, RInt (fun q => a / PI * (1 / 2) * w / ((q - c) ^ 2 + h ^ 2)) (- T) T = a / PI * (atan (/ h * T + - (c / h)) + atan (/ h * T + c / h))).
    { intros T. replace (a / PI * (atan (/ h * T + - (c / h)) + atan (/ h * T + c / h))) with (a / PI * atan ((T - c) / h) - a / PI * atan ((- T - c) / h)).
      - apply is_RInt_unique. apply (is_RInt_derive (fun q => a / PI * atan ((q - c) / h))).
        + intros q _. auto_derive; auto. replace (c + - c) with 0 by ring. field_simplify_eq; [|repeat split; try lra; try (specialize (D q); nra)]. unfold h. field_simplify. lra || ring.
        + intros q _. apply (ex_derive_continuous (fun q => a / PI * (1 / 2) * w / ((q - c) ^ 2 + h ^ 2))). auto_derive. specialize (D q). nra.
      - replace ((- T - c) / h) with (- (/ h * T + c / h)) by (field; lra). rewrite atan_opp. replace ((T - c) / h) with (/ h * T + - (c / h)) by (field; lra). ring. }
    apply (is_lim_ext (fun T => a / PI * (atan (/ h * T + - (c / h)) + atan (/ h * T + c / h)))); [intros; symmetry; apply I|].
    assert (Lm : forall v, is_lim (fun T => atan (/ h * T + v)) p_infty (PI / 2)).
    { intros v. assert (Hh : 0 < / h) by now apply Rinv_0_lt_compat. apply (is_lim_comp atan (fun T => / h * T + v) p_infty (PI / 2) p_infty); [apply atan_lim| |exists 0; intros; discriminate].
      intros P [M HM]. exists ((M - v) * h). intros z Lz. apply HM. apply (Rmult_lt_compat_l (/ h)) in Lz; auto. replace (/ h * ((M - v) * h)) with (M - v) in Lz by (field; lra). lra. }
    assert (Ea : Finite a = Finite (a / PI * (PI / 2 + PI / 2))) by (f_equal; field; lra). rewrite Ea. apply (is_lim_scal_l _ (a / PI) p_infty (PI / 2 + PI / 2)). apply (is_lim_plus _ _ p_infty (PI / 2) (PI / 2)); [apply Lm|apply Lm|reflexivity].
Qed.
Print Assumptions C37_lorentzian.
Example C37_lorentzian_ex : lorentzian [1; 0; 2 * PI; 3; 2] 4 = Ok (Some (1 + 1)).
Proof.
  unfold lorentzian, peaks. cbn [List.length Nat.ltb Nat.leb Nat.sub]. change (3 / 3)%nat with 1%nat. cbn [seq fold_left]. unfold par, odiv. cbn [Nat.mul Nat.add nth]. destruct (Req_EM_T ((4 - 3) ^ 2 + (1 / 2 * 2) ^ 2) 0); [lra|]. cbn [oplus]. do 2 f_equal. assert (TP := PI_RGT_0). field. lra.
Qed.

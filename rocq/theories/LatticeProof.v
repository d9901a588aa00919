(** Proofs about unit cells. *)
From Coq Require Import Reals Lra Psatz.
From Verif Require Import LinAlg LatticeModel.
Local Open Scope R_scope.

(** A cell: positive lengths, angles between 0 and 180 degrees, and three axes that span space. *)
Definition cell (l : lattice) : Prop :=
  0 < la l /\ 0 < lb l /\ 0 < lc l /\
  0 < alpha l < 180 /\ 0 < beta l < 180 /\ 0 < gamma l < 180 /\
  0 < 1 - cos (rad (alpha l)) ^ 2 - cos (rad (beta l)) ^ 2 - cos (rad (gamma l)) ^ 2
      + 2 * cos (rad (alpha l)) * cos (rad (beta l)) * cos (rad (gamma l)).

Lemma sin_rad_pos x : 0 < x < 180 -> 0 < sin (rad x).
Proof.
  intros H. assert (P := PI_RGT_0). apply sin_gt_0; unfold rad.
  - apply Rmult_lt_0_compat; [apply Rmult_lt_0_compat; lra|lra].
  - assert (x * PI < 180 * PI) by (apply Rmult_lt_compat_r; lra). lra.
Qed.
Lemma sc x : sin x ^ 2 = 1 - cos x ^ 2.
Proof. assert (H := sin2_cos2 x). unfold Rsqr in H. nra. Qed.

(** Everything in terms of sines and cosines of the cell angles and the root r of the Gram factor. *)
Record facts (l : lattice) (ca cb cg sa sb sg r : R) : Prop := {
  f_ca : cos (rad (alpha l)) = ca; f_cb : cos (rad (beta l)) = cb; f_cg : cos (rad (gamma l)) = cg;
  f_sa : sin (rad (alpha l)) = sa; f_sb : sin (rad (beta l)) = sb; f_sg : sin (rad (gamma l)) = sg;
  f_sa0 : 0 < sa; f_sb0 : 0 < sb; f_sg0 : 0 < sg; f_r0 : 0 < r;
  f_sa2 : sa ^ 2 = 1 - ca ^ 2; f_sb2 : sb ^ 2 = 1 - cb ^ 2; f_sg2 : sg ^ 2 = 1 - cg ^ 2;
  f_r2 : r ^ 2 = 1 - ca ^ 2 - cb ^ 2 - cg ^ 2 + 2 * ca * cb * cg;
  f_a : 0 < la l; f_b : 0 < lb l; f_c : 0 < lc l }.

Lemma cell_facts l : cell l -> exists ca cb cg sa sb sg r, facts l ca cb cg sa sb sg r.
Proof.
  intros (Ha & Hb & Hc & A & B & C & D).
  do 6 eexists. exists (sqrt (1 - cos (rad (alpha l)) ^ 2 - cos (rad (beta l)) ^ 2 - cos (rad (gamma l)) ^ 2
      + 2 * cos (rad (alpha l)) * cos (rad (beta l)) * cos (rad (gamma l)))).
  constructor; try reflexivity; auto using sin_rad_pos, sc.
  - now apply sqrt_lt_R0.
  - rewrite <- Rsqr_pow2, Rsqr_sqrt by lra. reflexivity.
Qed.

Section F.
Context (l : lattice) (ca cb cg sa sb sg r : R) (F : facts l ca cb cg sa sb sg r).

Lemma det_G : det (G l) = (la l * lb l * lc l * r) ^ 2.
Proof. destruct F as [Eca Ecb Ecg Esa Esb Esg Psa Psb Psg Pr Qa Qb Qg Qr La Lb Lc]. unfold det, G; simpl. rewrite Eca, Ecb, Ecg. rewrite !Rmult_1_r.
  replace (la l * lb l * lc l * r * (la l * lb l * lc l * r)) with ((la l * lb l * lc l) ^ 2 * r ^ 2) by ring.
  rewrite Qr. ring. Qed.
Lemma abcr_pos : 0 < la l * lb l * lc l * r.
Proof. destruct F as [Eca Ecb Ecg Esa Esb Esg Psa Psb Psg Pr Qa Qb Qg Qr La Lb Lc]. repeat apply Rmult_lt_0_compat; auto. Qed.
Lemma det_G_pos : 0 < det (G l).
Proof. rewrite det_G. apply pow_lt, abcr_pos. Qed.
Lemma volume_eq : volume l = la l * lb l * lc l * r.
Proof. unfold volume. rewrite det_G. rewrite <- Rsqr_pow2. apply sqrt_Rsqr. apply Rlt_le, abcr_pos. Qed.

Lemma astar_eq : astar l = 2 * PI * sa / (la l * r).
Proof. unfold astar. rewrite volume_eq. destruct F as [Eca Ecb Ecg Esa Esb Esg Psa Psb Psg Pr Qa Qb Qg Qr La Lb Lc]. rewrite Esa. field. repeat split; lra. Qed.
Lemma bstar_eq : bstar l = 2 * PI * sb / (lb l * r).
Proof. unfold bstar. rewrite volume_eq. destruct F as [Eca Ecb Ecg Esa Esb Esg Psa Psb Psg Pr Qa Qb Qg Qr La Lb Lc]. rewrite Esb. field. repeat split; lra. Qed.
Lemma cstar_eq : cstar l = 2 * PI * sg / (lc l * r).
Proof. unfold cstar. rewrite volume_eq. destruct F as [Eca Ecb Ecg Esa Esb Esg Psa Psb Psg Pr Qa Qb Qg Qr La Lb Lc]. rewrite Esg. field. repeat split; lra. Qed.

Lemma star_cs x y z cx cy cz sx sy : cos x = cx -> cos y = cy -> cos z = cz -> sin x = sx -> sin y = sy ->
  0 < sx -> 0 < sy -> sx ^ 2 = 1 - cx ^ 2 -> sy ^ 2 = 1 - cy ^ 2 ->
  r ^ 2 = 1 - cx ^ 2 - cy ^ 2 - cz ^ 2 + 2 * cx * cy * cz ->
  cos (star_angle x y z) = (cx * cy - cz) / (sx * sy) /\ sin (star_angle x y z) = r / (sx * sy).
Proof.
  intros E1 E2 E3 E4 E5 P1 P2 Q1 Q2 Q3. unfold star_angle. rewrite E1, E2, E3, E4, E5.
  assert (Pr : 0 < r) by apply F. assert (Pxy : 0 < sx * sy) by (now apply Rmult_lt_0_compat).
  set (t := (cx * cy - cz) / (sx * sy)).
  assert (T : 1 - t ^ 2 = (r / (sx * sy)) ^ 2).
  { unfold t. replace ((r / (sx * sy)) ^ 2) with (r ^ 2 / (sx ^ 2 * sy ^ 2)) by (field; lra).
    replace (((cx * cy - cz) / (sx * sy)) ^ 2) with ((cx * cy - cz) ^ 2 / (sx ^ 2 * sy ^ 2)) by (field; lra).
    assert (N : sx ^ 2 * sy ^ 2 <> 0) by (apply Rgt_not_eq; apply Rmult_lt_0_compat; apply pow_lt; auto).
    apply (Rmult_eq_reg_r (sx ^ 2 * sy ^ 2)); auto.
    replace ((1 - (cx * cy - cz) ^ 2 / (sx ^ 2 * sy ^ 2)) * (sx ^ 2 * sy ^ 2)) with (sx ^ 2 * sy ^ 2 - (cx * cy - cz) ^ 2) by (field; lra).
    replace (r ^ 2 / (sx ^ 2 * sy ^ 2) * (sx ^ 2 * sy ^ 2)) with (r ^ 2) by (field; lra).
    rewrite Q1, Q2, Q3. ring. }
  assert (S : 0 < r / (sx * sy)) by (now apply Rdiv_lt_0_compat).
  assert (B : -1 <= t <= 1) by (assert (0 < (r / (sx * sy)) ^ 2) by (now apply pow_lt); split; nra).
  split; [now apply cos_acos|]. rewrite sin_acos by auto.
  replace (1 - Rsqr t) with ((r / (sx * sy)) ^ 2) by (rewrite <- T; unfold Rsqr; ring).
  rewrite <- Rsqr_pow2. apply sqrt_Rsqr. lra.
Qed.
Lemma alphastar_cs : cos (alphastar_rad l) = (cb * cg - ca) / (sb * sg) /\ sin (alphastar_rad l) = r / (sb * sg).
Proof. destruct F as [Eca Ecb Ecg Esa Esb Esg Psa Psb Psg Pr Qa Qb Qg Qr La Lb Lc]. apply star_cs; auto. lra. Qed.
Lemma betastar_cs : cos (betastar_rad l) = (ca * cg - cb) / (sa * sg) /\ sin (betastar_rad l) = r / (sa * sg).
Proof. destruct F as [Eca Ecb Ecg Esa Esb Esg Psa Psb Psg Pr Qa Qb Qg Qr La Lb Lc]. apply star_cs; auto. lra. Qed.
Lemma gammastar_cs : cos (gammastar_rad l) = (ca * cb - cg) / (sa * sb) /\ sin (gammastar_rad l) = r / (sa * sb).
Proof. destruct F as [Eca Ecb Ecg Esa Esb Esg Psa Psb Psg Pr Qa Qb Qg Qr La Lb Lc]. apply star_cs; auto. Qed.

(** Gstar in the same terms. *)
Definition gs : m3 :=
  let k := 4 * PI ^ 2 / r ^ 2 in
  M (k * sa ^ 2 / la l ^ 2) (k * (ca * cb - cg) / (la l * lb l)) (k * (ca * cg - cb) / (la l * lc l))
    (k * (ca * cb - cg) / (la l * lb l)) (k * sb ^ 2 / lb l ^ 2) (k * (cb * cg - ca) / (lb l * lc l))
    (k * (ca * cg - cb) / (la l * lc l)) (k * (cb * cg - ca) / (lb l * lc l)) (k * sg ^ 2 / lc l ^ 2).
Lemma Gstar_eq : Gstar l = gs.
Proof.
  unfold Gstar, inv. rewrite det_G. destruct F as [Eca Ecb Ecg Esa Esb Esg Psa Psb Psg Pr Qa Qb Qg Qr La Lb Lc]. unfold gs.
  apply m3_eq; simpl; rewrite ?Eca, ?Ecb, ?Ecg, ?Rmult_1_r;
    try (replace (sa * sa) with (1 - ca * ca) by nra); try (replace (sb * sb) with (1 - cb * cb) by nra);
    try (replace (sg * sg) with (1 - cg * cg) by nra); field; repeat split; lra.
Qed.

(** A Cartesian matrix of the reciprocal basis. *)
Definition bc : m3 :=
  M (2 * PI * sa / (la l * r)) (2 * PI * (ca * cb - cg) / (lb l * r * sa)) (2 * PI * (ca * cg - cb) / (lc l * r * sa))
    0 (2 * PI / (lb l * sa)) (- (2 * PI * ca / (lc l * sa)))
    0 0 (2 * PI / lc l).
Lemma bc_gram : mmul (mT bc) bc = Gstar l.
Proof.
  rewrite Gstar_eq. destruct F as [Eca Ecb Ecg Esa Esb Esg Psa Psb Psg Pr Qa Qb Qg Qr La Lb Lc].
  assert (Hc2 : cg ^ 2 = 1 - ca ^ 2 - cb ^ 2 + 2 * ca * cb * cg - r ^ 2) by lra.
  unfold bc, gs; apply m3_eq; simpl; rewrite ?Rmult_1_r.
  - field; repeat split; lra.
  - field; repeat split; lra.
  - field; repeat split; lra.
  - field; repeat split; lra.
  - apply (Rmult_eq_reg_r ((lb l * r * sa) ^ 2 / (4 * PI ^ 2))).
    2:{ assert (P := PI_RGT_0). apply Rgt_not_eq. apply Rdiv_lt_0_compat; [apply pow_lt; repeat apply Rmult_lt_0_compat; auto|].
        apply Rmult_lt_0_compat; [lra|apply pow_lt; lra]. }
    assert (P := PI_RGT_0).
    transitivity ((ca * cb - cg) ^ 2 + r ^ 2); [field; repeat split; lra|].
    transitivity (sa ^ 2 * sb ^ 2); [|field; repeat split; lra]. rewrite Qa, Qb, Qr. ring.
  - apply (Rmult_eq_reg_r ((lb l * lc l * r ^ 2 * sa ^ 2) / (4 * PI ^ 2))).
    2:{ assert (P := PI_RGT_0). apply Rgt_not_eq. apply Rdiv_lt_0_compat; [repeat apply Rmult_lt_0_compat; auto; lra|].
        apply Rmult_lt_0_compat; [lra|apply pow_lt; lra]. }
    assert (P := PI_RGT_0).
    transitivity ((ca * cb - cg) * (ca * cg - cb) - r ^ 2 * ca); [field; repeat split; lra|].
    transitivity (sa ^ 2 * (cb * cg - ca)); [|field; repeat split; lra]. rewrite Qa, Qr. ring.
  - field; repeat split; lra.
  - apply (Rmult_eq_reg_r ((lb l * lc l * r ^ 2 * sa ^ 2) / (4 * PI ^ 2))).
    2:{ assert (P := PI_RGT_0). apply Rgt_not_eq. apply Rdiv_lt_0_compat; [repeat apply Rmult_lt_0_compat; auto; lra|].
        apply Rmult_lt_0_compat; [lra|apply pow_lt; lra]. }
    assert (P := PI_RGT_0).
    transitivity ((ca * cb - cg) * (ca * cg - cb) - r ^ 2 * ca); [field; repeat split; lra|].
    transitivity (sa ^ 2 * (cb * cg - ca)); [|field; repeat split; lra]. rewrite Qa, Qr. ring.
  - apply (Rmult_eq_reg_r ((lc l * r * sa) ^ 2 / (4 * PI ^ 2))).
    2:{ assert (P := PI_RGT_0). apply Rgt_not_eq. apply Rdiv_lt_0_compat; [apply pow_lt; repeat apply Rmult_lt_0_compat; auto|].
        apply Rmult_lt_0_compat; [lra|apply pow_lt; lra]. }
    assert (P := PI_RGT_0).
    transitivity ((ca * cg - cb) ^ 2 + r ^ 2 * ca ^ 2 + r ^ 2 * sa ^ 2); [field; repeat split; lra|].
    transitivity (sa ^ 2 * sg ^ 2); [|field; repeat split; lra]. rewrite Qa, Qg, Qr. ring.
Qed.
Lemma bc_det : det bc <> 0.
Proof.
  assert (P := PI_RGT_0). destruct F as [Eca Ecb Ecg Esa Esb Esg Psa Psb Psg Pr Qa Qb Qg Qr La Lb Lc]. unfold det, bc; simpl. apply Rgt_not_eq.
  replace (2 * PI * sa / (la l * r) * (2 * PI / (lb l * sa) * (2 * PI / lc l) - - (2 * PI * ca / (lc l * sa)) * 0) -
   2 * PI * (ca * cb - cg) / (lb l * r * sa) * (0 * (2 * PI / lc l) - - (2 * PI * ca / (lc l * sa)) * 0) +
   2 * PI * (ca * cg - cb) / (lc l * r * sa) * (0 * 0 - 2 * PI / (lb l * sa) * 0))
   with (8 * PI ^ 3 / (la l * lb l * lc l * r)) by (field; repeat split; lra).
  apply Rdiv_lt_0_compat; [|apply abcr_pos]. apply Rmult_lt_0_compat; [lra|apply pow_lt; lra].
Qed.
(** The form of Gstar is a scalar product of Cartesian vectors. *)
Lemma form_bc a b : form (Gstar l) a b = dot (mv bc a) (mv bc b).
Proof. unfold form. rewrite <- bc_gram, mv_mmul, dot_mv. f_equal. Qed.
Lemma bc_inj a : mv bc a = V 0 0 0 -> a = V 0 0 0.
Proof.
  intros H. assert (E : mv (mmul (inv bc) bc) a = a).
  { rewrite (inv_l _ bc_det). apply v3_eq; simpl; ring. }
  rewrite <- E, mv_mmul, H. apply v3_eq; simpl; ring.
Qed.
Lemma form_pos a : a <> V 0 0 0 -> 0 < form (Gstar l) a a.
Proof. intros H. rewrite form_bc. apply dot_pos. intros E. apply H, bc_inj, E. Qed.
Lemma form_cs a b : form (Gstar l) a b ^ 2 <= form (Gstar l) a a * form (Gstar l) b b.
Proof. rewrite !form_bc. apply cauchy_schwarz. Qed.
Lemma form_sym a b : form (Gstar l) a b = form (Gstar l) b a.
Proof. rewrite !form_bc. apply dot_comm. Qed.

Lemma Bmatrix_eq : Bmatrix l =
  M (m11 bc) (m12 bc) (m13 bc) 0 (m22 bc) (m23 bc) 0 0 (2 * PI / lc l * (sin (alphastar_rad l) / sa)).
Proof.
  unfold Bmatrix. rewrite astar_eq, bstar_eq, cstar_eq.
  destruct betastar_cs as [B1 B2]. destruct gammastar_cs as [G1 G2]. rewrite B1, B2, G1, G2. destruct F as [Eca Ecb Ecg Esa Esb Esg Psa Psb Psg Pr Qa Qb Qg Qr La Lb Lc]. rewrite Eca.
  unfold bc. apply m3_eq; simpl; field; repeat split; lra.
Qed.
Lemma B_gram : mmul (mT (Bmatrix l)) (Bmatrix l) = Gstar l <-> sin (alphastar_rad l) = sa.
Proof.
  rewrite Bmatrix_eq, <- bc_gram. assert (P := PI_RGT_0). destruct alphastar_cs as [_ A]. destruct F as [Eca Ecb Ecg Esa Esb Esg Psa Psb Psg Pr Qa Qb Qg Qr La Lb Lc].
  assert (Pa : 0 < sin (alphastar_rad l)).
  { rewrite A. apply Rdiv_lt_0_compat; auto. apply Rmult_lt_0_compat; auto. }
  split; intros H.
  - apply (f_equal m33) in H. simpl in H. unfold bc in H. simpl in H.
    set (s := sin (alphastar_rad l)) in *.
    assert (E : (2 * PI / lc l) ^ 2 * ((s / sa) ^ 2 - 1) = 0) by lra.
    apply Rmult_integral in E. destruct E as [E|E].
    + exfalso. assert (0 < (2 * PI / lc l) ^ 2) by (apply pow_lt, Rdiv_lt_0_compat; lra). lra.
    + assert (Q : 0 < s / sa) by (now apply Rdiv_lt_0_compat). assert (s / sa = 1) by nra.
      replace s with (s / sa * sa) by (field; lra). rewrite H0. ring.
  - rewrite H. unfold bc. apply m3_eq; simpl; field; repeat split; lra.
Qed.
End F.

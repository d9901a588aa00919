(** Properties of unit cells, Bragg geometry and orientation (C21, C22, C23, C25). *)
From Coq Require Import Reals Lra Psatz.
From Verif Require Import LinAlg LatticeModel LatticeProof.
Local Open Scope R_scope.

Lemma four_pi2 : 0 < 4 * PI ^ 2.
Proof. assert (P := PI_RGT_0). apply Rmult_lt_0_compat; [lra|apply pow_lt; lra]. Qed.

(** C21.  The two metric tensors are inverse up to 4 pi^2, and so are the volumes. *)
Theorem C21_metric_duality : forall l, cell l ->
  mmul (G l) (Gstar l) = mscal (4 * PI ^ 2) mI /\ mmul (Gstar l) (G l) = mscal (4 * PI ^ 2) mI /\
  symmetric (Gstar l) /\ 0 < volume l /\ volume l * reciprocal_volume l = (2 * PI) ^ 3.
Proof.
  intros l H. destruct (cell_facts l H) as (ca & cb & cg & sa & sb & sg & r & F).
  assert (D := det_G_pos l _ _ _ _ _ _ _ F). assert (P := four_pi2).
  assert (E1 : mmul (G l) (Gstar l) = mscal (4 * PI ^ 2) mI).
  { unfold Gstar. rewrite <- (inv_r (G l)) by lra. apply m3_eq; simpl; ring. }
  assert (E2 : mmul (Gstar l) (G l) = mscal (4 * PI ^ 2) mI).
  { unfold Gstar. rewrite <- (inv_l (G l)) by lra. apply m3_eq; simpl; ring. }
  split; auto. split; auto. split.
  { rewrite (Gstar_eq l _ _ _ _ _ _ _ F). repeat split. }
  assert (Vp : 0 < volume l) by (unfold volume; now apply sqrt_lt_R0). split; auto.
  apply (f_equal det) in E1. rewrite det_mul, det_scal, det_I in E1.
  assert (Dg : 0 < det (Gstar l)).
  { replace (det (Gstar l)) with ((4 * PI ^ 2) ^ 3 / det (G l)) by (apply (Rmult_eq_reg_l (det (G l))); [|lra]; rewrite E1; field; lra).
    apply Rdiv_lt_0_compat; auto. now apply pow_lt. }
  unfold volume, reciprocal_volume. rewrite <- sqrt_mult by lra. rewrite E1, Rmult_1_r.
  replace ((4 * PI ^ 2) ^ 3) with (Rsqr ((2 * PI) ^ 3)) by (unfold Rsqr; ring).
  apply sqrt_Rsqr. apply pow_le. assert (Q := PI_RGT_0). lra.
Qed.
Print Assumptions C21_metric_duality.

(** A triclinic example: a rhombohedral cell with 60 degree angles. *)
Lemma rad60 : rad 60 = PI / 3. Proof. unfold rad. field. Qed.
Lemma rad90 : rad 90 = PI / 2. Proof. unfold rad. field. Qed.
Definition rhombo : lattice := mkL 5 5 5 60 60 60.
Example C21_ex : cell rhombo.
Proof. unfold cell, rhombo; simpl. rewrite rad60, cos_PI3. repeat split; lra. Qed.

(** C21.  The reciprocal lengths and angles reproduce the reciprocal metric. *)
Theorem C21_reciprocal_parameters : forall l, cell l ->
  0 < astar l /\ 0 < bstar l /\ 0 < cstar l /\
  0 < alphastar l < 180 /\ 0 < betastar l < 180 /\ 0 < gammastar l < 180 /\
  Gstar l = G (mkL (astar l) (bstar l) (cstar l) (alphastar l) (betastar l) (gammastar l)).
Proof.
  intros l H. destruct (cell_facts l H) as (ca & cb & cg & sa & sb & sg & r & F).
  assert (P := PI_RGT_0).
  assert (Ang : forall x, 0 < sin (acos x) -> 0 < deg (acos x) < 180).
  { intros x Hs. destruct (acos_bound x) as [B1 B2]. unfold deg.
    assert (acos x <> 0) by (intros E; rewrite E, sin_0 in Hs; lra).
    assert (acos x <> PI) by (intros E; rewrite E, sin_PI in Hs; lra).
    split; [apply Rdiv_lt_0_compat; lra|]. apply (Rmult_lt_reg_r PI); auto.
    replace (acos x * 180 / PI * PI) with (acos x * 180) by (field; lra). nra. }
  assert (RD : forall x, rad (deg x) = x) by (intros; unfold rad, deg; field; lra).
  destruct (alphastar_cs l _ _ _ _ _ _ _ F) as [A1 A2]. destruct (betastar_cs l _ _ _ _ _ _ _ F) as [B1 B2].
  destruct (gammastar_cs l _ _ _ _ _ _ _ F) as [C1 C2].
  rewrite (Gstar_eq l _ _ _ _ _ _ _ F).
  unfold G; cbn [la lb lc alpha beta gamma]. unfold alphastar, betastar, gammastar. rewrite !RD.
  rewrite A1, B1, C1, (astar_eq l _ _ _ _ _ _ _ F), (bstar_eq l _ _ _ _ _ _ _ F), (cstar_eq l _ _ _ _ _ _ _ F).
  destruct F as [Eca Ecb Ecg Esa Esb Esg Psa Psb Psg Pr Qa Qb Qg Qr La Lb Lc].
  assert (K : forall s x, 0 < s -> 0 < x -> 0 < 2 * PI * s / (x * r)).
  { intros. apply Rdiv_lt_0_compat; [apply Rmult_lt_0_compat; lra|now apply Rmult_lt_0_compat]. }
  split; [apply K; auto|]. split; [apply K; auto|]. split; [apply K; auto|].
  split; [|split; [|split]].
  - unfold alphastar_rad, star_angle in *. apply Ang. rewrite A2.
    apply Rdiv_lt_0_compat; auto. apply Rmult_lt_0_compat; auto.
  - unfold betastar_rad, star_angle in *. apply Ang. rewrite B2.
    apply Rdiv_lt_0_compat; auto. apply Rmult_lt_0_compat; auto.
  - unfold gammastar_rad, star_angle in *. apply Ang. rewrite C2.
    apply Rdiv_lt_0_compat; auto. apply Rmult_lt_0_compat; auto.
  - unfold gs. apply m3_eq; simpl; field; repeat split; lra.
Qed.
Print Assumptions C21_reciprocal_parameters.

(** The lattice whose parameters are the reciprocal ones. *)
Definition reciprocal (l : lattice) : lattice :=
  mkL (astar l) (bstar l) (cstar l) (alphastar l) (betastar l) (gammastar l).

(** C21.  It is a cell again, and its reciprocal is the original cell. *)
Theorem C21_reciprocal_involution : forall l, cell l -> cell (reciprocal l) /\ reciprocal (reciprocal l) = l.
Proof.
  intros l H. destruct (C21_reciprocal_parameters l H) as (Pa & Pb & Pc & Aa & Ab & Ac & E).
  destruct (C21_metric_duality l H) as (_ & DG & _ & Vp & Vv). assert (P := PI_RGT_0). assert (P4 := four_pi2).
  fold (reciprocal l) in E.
  assert (Dg : 0 < det (Gstar l)).
  { apply (f_equal det) in DG. rewrite det_mul, det_scal, det_I in DG.
    destruct (cell_facts l H) as (ca & cb & cg & sa & sb & sg & r & F).
    assert (D := det_G_pos l _ _ _ _ _ _ _ F).
    replace (det (Gstar l)) with ((4 * PI ^ 2) ^ 3 / det (G l)) by (apply (Rmult_eq_reg_r (det (G l))); [|lra]; rewrite DG; field; lra).
    apply Rdiv_lt_0_compat; auto. now apply pow_lt. }
  assert (C : cell (reciprocal l)).
  { unfold cell. cbn [reciprocal la lb lc alpha beta gamma]. repeat (split; [assumption|]).
    rewrite E in Dg. unfold det, G, reciprocal in Dg; cbn [la lb lc alpha beta gamma m11 m12 m13 m21 m22 m23 m31 m32 m33] in Dg.
    set (ca := cos (rad (alphastar l))) in *. set (cb := cos (rad (betastar l))) in *. set (cg := cos (rad (gammastar l))) in *.
    assert (Q : 0 < (astar l * bstar l * cstar l) ^ 2) by (apply pow_lt; apply Rmult_lt_0_compat; [now apply Rmult_lt_0_compat|assumption]).
    apply (Rmult_lt_reg_l ((astar l * bstar l * cstar l) ^ 2)); auto. rewrite Rmult_0_r.
    eapply Rlt_le_trans; [exact Dg|]. right. ring. }
  split; auto.
  assert (GG : Gstar (reciprocal l) = G l).
  { unfold Gstar. rewrite <- E.
    assert (I : mscal (/ (4 * PI ^ 2)) (G l) = inv (Gstar l)).
    { apply inv_unique; [lra|].
      replace (mmul (Gstar l) (mscal (/ (4 * PI ^ 2)) (G l))) with (mscal (/ (4 * PI ^ 2)) (mmul (Gstar l) (G l))) by (apply m3_eq; simpl; ring).
      rewrite DG. unfold mscal, mI; simpl. f_equal; field; lra. }
    rewrite <- I. apply m3_eq; simpl; field; lra. }
  destruct (C21_reciprocal_parameters _ C) as (Ra & Rb & Rc & Sa & Sb & Sc & E2).
  rewrite GG in E2. destruct H as (Ha & Hb & Hc & A1 & A2 & A3 & _).
  assert (SQ : forall x y, 0 < x -> 0 < y -> x ^ 2 = y ^ 2 -> x = y) by (intros; nra).
  assert (X1 : la l = astar (reciprocal l)) by (apply SQ; auto; apply (f_equal m11) in E2; exact E2).
  assert (X2 : lb l = bstar (reciprocal l)) by (apply SQ; auto; apply (f_equal m22) in E2; exact E2).
  assert (X3 : lc l = cstar (reciprocal l)) by (apply SQ; auto; apply (f_equal m33) in E2; exact E2).
  assert (AN : forall k x y, 0 < k -> 0 < x < 180 -> 0 < y < 180 -> k * cos (rad x) = k * cos (rad y) -> x = y).
  { intros k x y Hk Hx Hy Hxy. apply Rmult_eq_reg_l in Hxy; [|lra].
    assert (B : forall z, 0 < z < 180 -> 0 <= rad z <= PI).
    { intros z Hz. unfold rad. split; [apply Rmult_le_pos; [apply Rmult_le_pos|]; lra|]. assert (z * PI <= 180 * PI) by (apply Rmult_le_compat_r; lra). lra. }
    assert (rad x = rad y) by (rewrite <- (acos_cos (rad x)), <- (acos_cos (rad y)) by auto; now rewrite Hxy).
    unfold rad in H. apply (Rmult_eq_reg_r (PI / 180)); lra. }
  assert (Y1 : alpha l = alphastar (reciprocal l)).
  { apply (AN (lb l * lc l)); auto; [now apply Rmult_lt_0_compat|]. apply (f_equal m23) in E2. simpl in E2. rewrite E2, X2, X3. reflexivity. }
  assert (Y2 : beta l = betastar (reciprocal l)).
  { apply (AN (la l * lc l)); auto; [now apply Rmult_lt_0_compat|]. apply (f_equal m13) in E2. simpl in E2. rewrite E2, X1, X3. reflexivity. }
  assert (Y3 : gamma l = gammastar (reciprocal l)).
  { apply (AN (la l * lb l)); auto; [now apply Rmult_lt_0_compat|]. apply (f_equal m12) in E2. simpl in E2. rewrite E2, X1, X2. reflexivity. }
  unfold reciprocal at 1. rewrite <- X1, <- X2, <- X3, <- Y1, <- Y2, <- Y3. destruct l; reflexivity.
Qed.
Print Assumptions C21_reciprocal_involution.

(** C21.  The Cartesian matrix B is upper triangular and reproduces the reciprocal metric exactly when
    the sines of alpha and of the reciprocal angle alpha* agree. *)
Theorem C21_Bmatrix : forall l, cell l ->
  upper (Bmatrix l) /\
  (mmul (mT (Bmatrix l)) (Bmatrix l) = Gstar l <-> sin (rad (alphastar l)) = sin (rad (alpha l))).
Proof.
  intros l H. split; [repeat split|].
  destruct (cell_facts l H) as (ca & cb & cg & sa & sb & sg & r & F).
  assert (RD : forall x, rad (deg x) = x) by (intros; unfold rad, deg; field; assert (P := PI_RGT_0); lra).
  unfold alphastar. rewrite RD, (f_sa l _ _ _ _ _ _ _ F). apply (B_gram l _ _ _ _ _ _ _ F).
Qed.
Print Assumptions C21_Bmatrix.

(** C21.  That is the case whenever alpha and one of the other angles are right: monoclinic,
    orthorhombic, tetragonal, hexagonal and cubic cells. *)
Theorem C21_Bmatrix_right_angles : forall l, cell l -> alpha l = 90 -> beta l = 90 \/ gamma l = 90 ->
  mmul (mT (Bmatrix l)) (Bmatrix l) = Gstar l.
Proof.
  intros l H A B. destruct (cell_facts l H) as (ca & cb & cg & sa & sb & sg & r & F).
  apply (B_gram l _ _ _ _ _ _ _ F). destruct (alphastar_cs l _ _ _ _ _ _ _ F) as [_ S]. rewrite S.
  destruct F as [Eca Ecb Ecg Esa Esb Esg Psa Psb Psg Pr Qa Qb Qg Qr La Lb Lc].
  rewrite A, rad90, cos_PI2 in Eca. rewrite A, rad90, sin_PI2 in Esa. subst ca sa.
  assert (Z : cb = 0 \/ cg = 0) by (destruct B as [B|B]; rewrite B, rad90, cos_PI2 in *; auto).
  apply (Rmult_eq_reg_r (sb * sg)); [|apply Rgt_not_eq; apply Rmult_lt_0_compat; auto].
  replace (r / (sb * sg) * (sb * sg)) with r by (field; split; lra). rewrite Rmult_1_l.
  assert (r ^ 2 = (sb * sg) ^ 2).
  { rewrite Rpow_mult_distr, Qb, Qg, Qr. destruct Z as [-> | ->]; ring. }
  assert (0 < sb * sg) by (now apply Rmult_lt_0_compat). nra.
Qed.
Print Assumptions C21_Bmatrix_right_angles.
Example C21_monoclinic_ex : cell (mkL 3 4 5 90 60 90).
Proof. unfold cell; simpl. rewrite rad60, rad90, cos_PI3, cos_PI2. repeat split; lra. Qed.

(** C21.  It fails for other cells. *)
Theorem C21_Bmatrix_metric_refuted : exists l, cell l /\ mmul (mT (Bmatrix l)) (Bmatrix l) <> Gstar l.
Proof.
  exists rhombo. split; [exact C21_ex|]. intros H.
  destruct (cell_facts rhombo C21_ex) as (ca & cb & cg & sa & sb & sg & r & F).
  apply (B_gram rhombo _ _ _ _ _ _ _ F) in H. destruct (alphastar_cs rhombo _ _ _ _ _ _ _ F) as [_ S]. rewrite S in H.
  destruct F as [Eca Ecb Ecg Esa Esb Esg Psa Psb Psg Pr Qa Qb Qg Qr La Lb Lc]. unfold rhombo in *; simpl alpha in *; simpl beta in *; simpl gamma in *.
  rewrite rad60, cos_PI3 in Eca, Ecb, Ecg. subst ca cb cg.
  assert (sa ^ 2 = 3 / 4) by lra. assert (sb = sa) by congruence. assert (sg = sa) by congruence. clear Esa Esb Esg. subst sb sg.
  assert (r = sa ^ 3). { apply (f_equal (fun x => x * (sa * sa))) in H. replace (r / (sa * sa) * (sa * sa)) with r in H by (field; lra). lra. }
  assert (r ^ 2 = (sa ^ 2) ^ 3) by (rewrite H1; ring). rewrite H0, Qr in H2. lra.
Qed.
Print Assumptions C21_Bmatrix_metric_refuted.

(** ** C22 *)
Definition nz (v : v3) : Prop := v <> V 0 0 0.

Lemma form_scal2 m n v : form m (vscal n v) (vscal n v) = n ^ 2 * form m v v.
Proof. unfold form, dot, mv, vscal; simpl; ring. Qed.
Lemma form_scal_r m n v w : form m v (vscal n w) = n * form m v w.
Proof. unfold form, dot, mv, vscal; simpl; ring. Qed.
Lemma form_mscal m n v w : form (mscal n m) v w = n * form m v w.
Proof. unfold form, dot, mv, mscal; simpl; ring. Qed.
Lemma d_form l hkl : get_d_spacing l hkl = 1 / sqrt (form (Gstar l) hkl hkl / (4 * PI ^ 2)).
Proof.
  unfold get_d_spacing. do 2 f_equal. assert (P := PI_RGT_0). generalize (Gstar l). intros m. unfold form, dot, mv, mscal; simpl. field. lra.
Qed.

(** C22.  Q and d: Q d = 2 pi, both positive, and Q squared is the reciprocal metric's form. *)
Theorem C22_q_times_d : forall l hkl, cell l -> nz hkl ->
  0 < get_d_spacing l hkl /\ 0 < get_q l hkl /\ get_q l hkl * get_d_spacing l hkl = 2 * PI /\
  get_q l hkl ^ 2 = form (Gstar l) hkl hkl.
Proof.
  intros l hkl C N. destruct (cell_facts l C) as (ca & cb & cg & sa & sb & sg & r & F).
  assert (P := PI_RGT_0). assert (P4 := four_pi2). assert (Fp := form_pos l _ _ _ _ _ _ _ F hkl N).
  assert (Q : 0 < form (Gstar l) hkl hkl / (4 * PI ^ 2)) by (now apply Rdiv_lt_0_compat).
  assert (S := sqrt_lt_R0 _ Q). assert (D : 0 < get_d_spacing l hkl).
  { rewrite d_form. apply Rdiv_lt_0_compat; lra. }
  split; auto. split; [unfold get_q; apply Rdiv_lt_0_compat; lra|]. split; [unfold get_q; field; lra|].
  unfold get_q. rewrite d_form. replace ((2 * PI / (1 / sqrt (form (Gstar l) hkl hkl / (4 * PI ^ 2)))) ^ 2)
    with (4 * PI ^ 2 * (sqrt (form (Gstar l) hkl hkl / (4 * PI ^ 2)) * sqrt (form (Gstar l) hkl hkl / (4 * PI ^ 2)))) by (field; lra).
  rewrite sqrt_def by lra. field. lra.
Qed.
Print Assumptions C22_q_times_d.

Lemma sqrt_scale k x : 0 <= x -> sqrt (k ^ 2 * x) = Rabs k * sqrt x.
Proof. intros. rewrite sqrt_mult; auto; [|nra]. f_equal. rewrite <- Rsqr_pow2. apply sqrt_Rsqr_abs. Qed.

(** C22.  d of a multiple: 1/|n| times d; in particular d and Q of -hkl are those of hkl. *)
Theorem C22_multiples : forall l hkl n, cell l -> nz hkl -> n <> 0 ->
  get_d_spacing l (vscal n hkl) = get_d_spacing l hkl / Rabs n /\
  get_q l (vscal n hkl) = Rabs n * get_q l hkl.
Proof.
  intros l hkl n C N Hn. destruct (cell_facts l C) as (ca & cb & cg & sa & sb & sg & r & F).
  assert (P := PI_RGT_0). assert (P4 := four_pi2). assert (Fp := form_pos l _ _ _ _ _ _ _ F hkl N).
  assert (Q : 0 < form (Gstar l) hkl hkl / (4 * PI ^ 2)) by (now apply Rdiv_lt_0_compat).
  assert (S := sqrt_lt_R0 _ Q). assert (A := Rabs_pos_lt n Hn).
  assert (D : get_d_spacing l (vscal n hkl) = get_d_spacing l hkl / Rabs n).
  { rewrite !d_form. replace (form (Gstar l) (vscal n hkl) (vscal n hkl) / (4 * PI ^ 2)) with (n ^ 2 * (form (Gstar l) hkl hkl / (4 * PI ^ 2)))
      by (rewrite form_scal2; field; lra).
    rewrite sqrt_scale by lra. field. split; lra. }
  split; auto. unfold get_q. rewrite D. rewrite d_form. field. repeat split; lra.
Qed.
Print Assumptions C22_multiples.
Theorem C22_inversion : forall l hkl, cell l -> nz hkl ->
  get_d_spacing l (vscal (-1) hkl) = get_d_spacing l hkl /\ get_q l (vscal (-1) hkl) = get_q l hkl.
Proof.
  intros l hkl C N. destruct (C22_multiples l hkl (-1) C N ltac:(lra)) as [A B]. rewrite A, B.
  replace (Rabs (-1)) with 1 by (rewrite Rabs_left; lra). split; field.
Qed.
Print Assumptions C22_inversion.

(** C22.  Bragg's law. *)
Theorem C22_bragg : forall l hkl w, cell l -> nz hkl -> 0 < w ->
  match get_two_theta l hkl w with
  | Some t => w <= 2 * get_d_spacing l hkl /\ 0 < t <= 180 /\ w = 2 * get_d_spacing l hkl * sin (rad t / 2)
  | None => 2 * get_d_spacing l hkl < w
  end.
Proof.
  intros l hkl w C N Hw. destruct (C22_q_times_d l hkl C N) as (D & _ & _ & _). assert (P := PI_RGT_0).
  unfold get_two_theta. set (d := get_d_spacing l hkl) in *.
  assert (Sp : 0 < w / 2 / d) by (apply Rdiv_lt_0_compat; lra).
  assert (E : w / 2 / d * (2 * d) = w) by (field; lra).
  destruct (Rle_dec (w / 2 / d) 1) as [L|L]; [|nra]. destruct (Rle_dec (-1) (w / 2 / d)) as [L'|L']; [|lra].
  split; [nra|]. assert (Z : asin 0 = 0) by apply asin_0.
  assert (Ab := asin_bound (w / 2 / d)).
  assert (As : sin (asin (w / 2 / d)) = w / 2 / d) by (apply sin_asin; lra).
  assert (A0 : 0 < asin (w / 2 / d)).
  { destruct (Rlt_le_dec 0 (asin (w / 2 / d))); auto. exfalso.
    assert (sin (asin (w / 2 / d)) <= 0) by (apply sin_le_0_var || (rewrite <- (Ropp_involutive (asin _)), sin_neg; assert (0 <= sin (- asin (w / 2 / d))) by (apply sin_ge_0; lra); lra)).
    lra. }
  split.
  - unfold deg. split; [apply Rmult_lt_0_compat; [lra|apply Rdiv_lt_0_compat; lra]|].
    apply (Rmult_le_reg_r (PI / 180)); [lra|].
    replace (2 * (asin (w / 2 / d) * 180 / PI) * (PI / 180)) with (2 * asin (w / 2 / d)) by (field; lra). lra.
  - replace (rad (2 * deg (asin (w / 2 / d))) / 2) with (asin (w / 2 / d)) by (unfold rad, deg; field; lra).
    rewrite As. field. lra.
Qed.
Print Assumptions C22_bragg.
Example C22_ex : cell rhombo /\ nz (V 1 1 0) /\ nz (V 0 (1 / 2) 2).
Proof. split; [exact C21_ex|]. split; intros H; inversion H; lra. Qed.

(** ** C23 *)
Lemma dot_form m a b : symmetric m -> dot (mv m a) b = form m a b.
Proof. intros (A & B & C). destruct m, a, b. unfold form, dot, mv; simpl in *. subst. ring. Qed.
Lemma gabp l v w : cell l -> get_angle_between_planes l v w =
  deg (acos (form (Gstar l) v w / sqrt (form (Gstar l) v v) / sqrt (form (Gstar l) w w))).
Proof.
  intros C. destruct (C21_metric_duality l C) as (_ & _ & S & _).
  unfold get_angle_between_planes. now rewrite !dot_form.
Qed.

Lemma deg_range x : 0 <= x <= PI -> 0 <= deg x <= 180.
Proof.
  intros H. assert (P := PI_RGT_0). unfold deg. split.
  - apply Rmult_le_pos; [lra|]. left. now apply Rinv_0_lt_compat.
  - apply (Rmult_le_reg_r (PI / 180)); [lra|]. replace (x * 180 / PI * (PI / 180)) with x by (field; lra). lra.
Qed.

(** C23.  Symmetric, within [0, 180] degrees, and the arccos is taken of a number in [-1, 1]: its
    cosine is the normalised scalar product. *)
Theorem C23_angle : forall l v w, cell l -> nz v -> nz w ->
  get_angle_between_planes l v w = get_angle_between_planes l w v /\
  0 <= get_angle_between_planes l v w <= 180 /\
  cos (rad (get_angle_between_planes l v w)) * (get_q l v * get_q l w) = form (Gstar l) v w.
Proof.
  intros l v w C Nv Nw. destruct (cell_facts l C) as (ca & cb & cg & sa & sb & sg & r & F).
  assert (P := PI_RGT_0). rewrite !gabp by auto.
  assert (Fv := form_pos l _ _ _ _ _ _ _ F v Nv). assert (Fw := form_pos l _ _ _ _ _ _ _ F w Nw).
  assert (Sv := sqrt_lt_R0 _ Fv). assert (Sw := sqrt_lt_R0 _ Fw).
  destruct (C22_q_times_d l v C Nv) as (_ & Qv & _ & Ev). destruct (C22_q_times_d l w C Nw) as (_ & Qw & _ & Ew).
  split; [|split].
  - rewrite (form_sym l _ _ _ _ _ _ _ F v w). do 2 f_equal. field. split; lra.
  - apply deg_range, acos_bound.
  - replace (rad (deg (acos (form (Gstar l) v w / sqrt (form (Gstar l) v v) / sqrt (form (Gstar l) w w)))))
      with (acos (form (Gstar l) v w / sqrt (form (Gstar l) v v) / sqrt (form (Gstar l) w w))) by (unfold rad, deg; field; lra).
    assert (Q1 : get_q l v = sqrt (form (Gstar l) v v)).
    { rewrite <- Ev, <- Rsqr_pow2, sqrt_Rsqr; auto; lra. }
    assert (Q2 : get_q l w = sqrt (form (Gstar l) w w)).
    { rewrite <- Ew, <- Rsqr_pow2, sqrt_Rsqr; auto; lra. }
    rewrite cos_acos, Q1, Q2; [field; split; lra|].
    assert (CS := form_cs l _ _ _ _ _ _ _ F v w).
    set (t := form (Gstar l) v w / sqrt (form (Gstar l) v v) / sqrt (form (Gstar l) w w)).
    assert (T : t ^ 2 <= 1).
    { unfold t. replace ((form (Gstar l) v w / sqrt (form (Gstar l) v v) / sqrt (form (Gstar l) w w)) ^ 2)
        with (form (Gstar l) v w ^ 2 / ((sqrt (form (Gstar l) v v) * sqrt (form (Gstar l) v v)) * (sqrt (form (Gstar l) w w) * sqrt (form (Gstar l) w w)))) by (field; split; lra).
      rewrite !sqrt_def by lra. assert (0 < form (Gstar l) v v * form (Gstar l) w w) by (now apply Rmult_lt_0_compat).
      apply (Rmult_le_reg_r (form (Gstar l) v v * form (Gstar l) w w)); auto.
      replace (form (Gstar l) v w ^ 2 / (form (Gstar l) v v * form (Gstar l) w w) * (form (Gstar l) v v * form (Gstar l) w w)) with (form (Gstar l) v w ^ 2) by (field; split; lra).
      lra. }
    split; nra.
Qed.
Print Assumptions C23_angle.

(** C23.  0 with positive multiples of itself, 180 degrees with negative ones. *)
Theorem C23_multiples : forall l v k, cell l -> nz v ->
  (0 < k -> get_angle_between_planes l v (vscal k v) = 0) /\
  (k < 0 -> get_angle_between_planes l v (vscal k v) = 180).
Proof.
  intros l v k C Nv. destruct (cell_facts l C) as (ca & cb & cg & sa & sb & sg & r & F).
  assert (P := PI_RGT_0). rewrite !gabp by auto.
  assert (Fv := form_pos l _ _ _ _ _ _ _ F v Nv). assert (Sv := sqrt_lt_R0 _ Fv).
  rewrite form_scal2, form_scal_r.
  rewrite sqrt_scale by lra.
  assert (E : k <> 0 -> k * form (Gstar l) v v / sqrt (form (Gstar l) v v) / (Rabs k * sqrt (form (Gstar l) v v)) = k / Rabs k).
  { intros Hk. assert (A := Rabs_pos_lt k Hk).
    replace (k * form (Gstar l) v v) with (k * (sqrt (form (Gstar l) v v) * sqrt (form (Gstar l) v v))) by (rewrite sqrt_def; lra).
    field. split; lra. }
  split; intros Hk; rewrite E by lra.
  - rewrite Rabs_pos_eq by lra. replace (k / k) with 1 by (field; lra). rewrite acos_1. unfold deg. field. lra.
  - rewrite Rabs_left by lra. replace (k / - k) with (-(1)) by (field; lra). rewrite acos_opp, acos_1. unfold deg. field. lra.
Qed.
Print Assumptions C23_multiples.

(** C23.  Scaling the whole cell changes no angle. *)
Definition scaled (k : R) (l : lattice) : lattice := mkL (k * la l) (k * lb l) (k * lc l) (alpha l) (beta l) (gamma l).
Theorem C23_scaling : forall l v w k, cell l -> nz v -> nz w -> 0 < k ->
  cell (scaled k l) /\
  get_angle_between_planes (scaled k l) v w = get_angle_between_planes l v w /\
  get_q (scaled k l) v = get_q l v / k.
Proof.
  intros l v w k C Nv Nw Hk. assert (P := PI_RGT_0).
  assert (Ck : cell (scaled k l)).
  { destruct C as (A & B & D & R). unfold cell, scaled; cbn [la lb lc alpha beta gamma].
    repeat (split; [now apply Rmult_lt_0_compat|]). exact R. }
  destruct (cell_facts l C) as (ca & cb & cg & sa & sb & sg & r & F).
  assert (D := det_G_pos l _ _ _ _ _ _ _ F).
  assert (E : Gstar (scaled k l) = mscal (/ k ^ 2) (Gstar l)).
  { assert (Gs : G (scaled k l) = mscal (k ^ 2) (G l)) by (apply m3_eq; simpl; ring).
    unfold Gstar. replace (inv (G (scaled k l))) with (mscal (/ k ^ 2) (inv (G l))); [apply m3_eq; simpl; ring|].
    apply inv_unique.
    - rewrite Gs, det_scal. apply Rgt_not_eq. apply Rmult_lt_0_compat; auto. repeat apply pow_lt. auto.
    - rewrite Gs. replace (mmul (mscal (k ^ 2) (G l)) (mscal (/ k ^ 2) (inv (G l)))) with (mscal (k ^ 2 * / k ^ 2) (mmul (G l) (inv (G l)))) by (apply m3_eq; simpl; ring).
      rewrite inv_r by lra. rewrite Rinv_r by (apply pow_nonzero; lra). apply m3_eq; simpl; ring. }
  assert (FE : forall a b, form (Gstar (scaled k l)) a b = (/ k) ^ 2 * form (Gstar l) a b).
  { intros. rewrite E, form_mscal. field. lra. }
  assert (Fv := form_pos l _ _ _ _ _ _ _ F v Nv). assert (Fw := form_pos l _ _ _ _ _ _ _ F w Nw).
  assert (Sv := sqrt_lt_R0 _ Fv). assert (Sw := sqrt_lt_R0 _ Fw). assert (Ik : 0 < / k) by (now apply Rinv_0_lt_compat).
  split; auto. split.
  - rewrite !gabp by auto. rewrite !FE, !sqrt_scale by lra. rewrite Rabs_pos_eq by lra. do 2 f_equal. field. repeat split; lra.
  - destruct (C22_q_times_d l v C Nv) as (_ & Q1 & _ & E1). destruct (C22_q_times_d _ v Ck Nv) as (_ & Q2 & _ & E2).
    rewrite FE, <- E1 in E2.
    assert (Q3 : 0 < get_q l v / k) by (now apply Rdiv_lt_0_compat).
    assert (get_q (scaled k l) v ^ 2 = (get_q l v / k) ^ 2) by (rewrite E2; field; lra). nra.
Qed.
Print Assumptions C23_scaling.

(** ** C25 *)
Definition collinear (u v : v3) : Prop := cross u v = V 0 0 0.
Lemma norm_sq a : norm a ^ 2 = dot a a.
Proof. unfold norm. rewrite <- Rsqr_pow2, Rsqr_sqrt; auto. apply dot_nonneg. Qed.
Lemma norm_nonneg a : 0 <= norm a.
Proof. apply sqrt_pos. Qed.
Lemma norm0 a : norm a = 0 <-> a = V 0 0 0.
Proof.
  split.
  - intros H. assert (E := norm_sq a). rewrite H in E. assert (D : dot a a = 0) by lra.
    unfold dot in D. apply v3_eq; simpl; nra.
  - intros ->. unfold norm, dot; simpl. replace (0 * 0 + 0 * 0 + 0 * 0) with 0 by ring. apply sqrt_0.
Qed.
Definition orthogonal_matrix (m : m3) : Prop := mmul m (mT m) = mI /\ mmul (mT m) m = mI /\ det m = 1.

Lemma mv_I v : mv mI v = v.
Proof. apply v3_eq; simpl; ring. Qed.
Lemma left_right m : mmul m (mT m) = mI -> det m = 1 -> mmul (mT m) m = mI.
Proof. intros H D. assert (E : mT m = inv m) by (apply inv_unique; auto; lra). rewrite E. apply inv_l. lra. Qed.

(** C25.  An orientation matrix exists exactly for non-collinear vectors; it is a proper rotation,
    takes u to the positive first axis and v into the half plane y > 0 of the first two. *)
Theorem C25_Umatrix : forall u v,
  match Umatrix u v with
  | None => collinear u v
  | Some U => ~ collinear u v /\ orthogonal_matrix U /\ mv U u = V (norm u) 0 0 /\
              vz (mv U v) = 0 /\ 0 < vy (mv U v)
  end.
Proof.
  intros u v. unfold Umatrix, gram_schmidt. destruct (Req_EM_T (norm u) 0) as [Z|Z].
  { apply norm0 in Z. subst u. unfold collinear. apply v3_eq; simpl; ring. }
  assert (Nu : 0 < norm u) by (assert (X := norm_nonneg u); lra).
  assert (Du := norm_sq u). set (n := norm u) in *.
  set (w := vsub v (vscal (dot v u / n ^ 2) u)).
  assert (Wu : dot w u = 0).
  { unfold w. replace (dot (vsub v (vscal (dot v u / n ^ 2) u)) u) with (dot v u - dot v u / n ^ 2 * dot u u) by (unfold dot, vsub, vscal; simpl; ring).
    rewrite <- Du. field. lra. }
  assert (CW : cross u w = cross u v) by (unfold w, cross, vsub, vscal; simpl; apply v3_eq; simpl; ring).
  assert (Vd : dot v w = dot w w).
  { replace (dot w w) with (dot v w - dot v u / n ^ 2 * dot w u) by (unfold w, dot, vsub, vscal; simpl; ring). rewrite Wu. ring. }
  destruct (Req_EM_T (norm w) 0) as [Zw|Zw].
  { apply norm0 in Zw. unfold collinear. rewrite <- CW, Zw. apply v3_eq; simpl; ring. }
  assert (Nw : 0 < norm w) by (assert (X := norm_nonneg w); lra).
  assert (Dw := norm_sq w). set (m := norm w) in *. clearbody m. clearbody w. clearbody n.
  assert (Cs : dot (cross u w) (cross u w) = n ^ 2 * m ^ 2).
  { replace (dot (cross u w) (cross u w)) with (dot u u * dot w w - dot w u ^ 2) by (unfold dot, cross; simpl; ring). rewrite Wu, Du, Dw. ring. }
  split.
  { intros Hc. unfold collinear in Hc. rewrite CW, Hc in Cs. assert (0 < n ^ 2 * m ^ 2) by (apply Rmult_lt_0_compat; now apply pow_lt).
    unfold dot in Cs; simpl in Cs. lra. }
  assert (O : mmul (rows3 (vscal (1 / n) u) (vscal (1 / m) w) (cross (vscal (1 / n) u) (vscal (1 / m) w)))
                   (mT (rows3 (vscal (1 / n) u) (vscal (1 / m) w) (cross (vscal (1 / n) u) (vscal (1 / m) w)))) = mI).
  { destruct u as [u1 u2 u3], w as [w1 w2 w3]. unfold dot in Du, Dw, Wu; simpl in Du, Dw, Wu.
    apply m3_eq; simpl.
    - transitivity ((u1 * u1 + u2 * u2 + u3 * u3) / (n * n)); [field; lra|]. rewrite <- Du. field. lra.
    - transitivity ((w1 * u1 + w2 * u2 + w3 * u3) / (n * m)); [field; lra|]. rewrite Wu. field. lra.
    - field; lra.
    - transitivity ((w1 * u1 + w2 * u2 + w3 * u3) / (n * m)); [field; lra|]. rewrite Wu. field. lra.
    - transitivity ((w1 * w1 + w2 * w2 + w3 * w3) / (m * m)); [field; lra|]. rewrite <- Dw. field. lra.
    - field; lra.
    - field; lra.
    - field; lra.
    - transitivity (dot (cross (V u1 u2 u3) (V w1 w2 w3)) (cross (V u1 u2 u3) (V w1 w2 w3)) / (n * m) ^ 2); [unfold dot, cross; simpl; field; lra|].
      rewrite Cs. field. lra. }
  assert (Dt : det (rows3 (vscal (1 / n) u) (vscal (1 / m) w) (cross (vscal (1 / n) u) (vscal (1 / m) w))) = 1).
  { transitivity (dot (cross u w) (cross u w) / (n * m) ^ 2); [|rewrite Cs; field; lra].
    unfold det, rows3, dot, cross, vscal; simpl. field. lra. }
  split; [split; [exact O|split; [apply left_right; auto|exact Dt]]|]. split; [|split].
  - apply v3_eq; simpl.
    + transitivity (dot u u / n); [unfold dot; field; lra|]. rewrite <- Du. field. lra.
    + transitivity (dot w u / m); [unfold dot; field; lra|]. rewrite Wu. field. lra.
    + field. lra.
  - simpl. transitivity (dot (cross u w) v / (n * m)); [unfold dot, cross; simpl; field; lra|].
    rewrite CW. unfold dot, cross; simpl. field. lra.
  - simpl. replace (1 / m * vx w * vx v + 1 / m * vy w * vy v + 1 / m * vz w * vz v) with (dot v w / m) by (unfold dot; field; lra).
    rewrite Vd, <- Dw. apply Rdiv_lt_0_compat; auto. now apply pow_lt.
Qed.
Print Assumptions C25_Umatrix.
Example C25_ex : ~ collinear (V 1 1 0) (V 0 0 1).
Proof. intros H. inversion H. lra. Qed.

(** C25.  The orientation matrix UB preserves lengths: |UB hkl| = Q for cells whose B matrix
    reproduces the metric (see C21_Bmatrix). *)
Theorem C25_UB_preserves_Q : forall l u v UB hkl, cell l -> nz hkl ->
  mmul (mT (Bmatrix l)) (Bmatrix l) = Gstar l ->
  UBmatrix l u v = Some UB -> norm (mv UB hkl) = get_q l hkl.
Proof.
  intros l u v UB hkl C N B H. unfold UBmatrix in H. assert (U0 := C25_Umatrix u v).
  destruct (Umatrix u v) as [U|]; [|discriminate]. inversion H; subst UB; clear H. destruct U0 as (_ & (_ & O & _) & _).
  destruct (C22_q_times_d l hkl C N) as (_ & Q & _ & E).
  assert (S : norm (mv (mmul U (Bmatrix l)) hkl) ^ 2 = get_q l hkl ^ 2).
  { rewrite norm_sq, E, <- B. unfold form. rewrite mv_mmul.
    replace (dot (mv U (mv (Bmatrix l) hkl)) (mv U (mv (Bmatrix l) hkl))) with (dot (mv (Bmatrix l) hkl) (mv (mmul (mT U) U) (mv (Bmatrix l) hkl))).
    2:{ rewrite mv_mmul, dot_mv. f_equal. }
    rewrite O, mv_I, mv_mmul, (dot_mv (mT (Bmatrix l))). reflexivity. }
  assert (X := norm_nonneg (mv (mmul U (Bmatrix l)) hkl)). nra.
Qed.
Print Assumptions C25_UB_preserves_Q.
Example C25_UB_ex : cell (mkL 3 4 5 90 60 90) /\ nz (V 1 0 2) /\
  mmul (mT (Bmatrix (mkL 3 4 5 90 60 90))) (Bmatrix (mkL 3 4 5 90 60 90)) = Gstar (mkL 3 4 5 90 60 90).
Proof.
  split; [exact C21_monoclinic_ex|]. split; [intros H; inversion H; lra|].
  apply C21_Bmatrix_right_angles; [exact C21_monoclinic_ex|reflexivity|right; reflexivity].
Qed.
(** C25.  In general the length differs. *)
Theorem C25_UB_preserves_Q_refuted : exists l u v UB hkl, cell l /\ nz hkl /\
  UBmatrix l u v = Some UB /\ norm (mv UB hkl) <> get_q l hkl.
Proof.
  assert (U0 := C25_Umatrix (V 1 0 0) (V 0 1 0)).
  destruct (Umatrix (V 1 0 0) (V 0 1 0)) as [U|] eqn:EU.
  2:{ exfalso. inversion U0. lra. }
  exists rhombo, (V 1 0 0), (V 0 1 0), (mmul U (Bmatrix rhombo)), (V 0 0 1).
  assert (N : nz (V 0 0 1)) by (intros H; inversion H; lra).
  split; [exact C21_ex|]. split; [exact N|]. split; [unfold UBmatrix; now rewrite EU|]. intros H.
  destruct U0 as (_ & (_ & O & _) & _).
  destruct (C22_q_times_d rhombo (V 0 0 1) C21_ex N) as (_ & _ & _ & E). rewrite <- H, norm_sq, mv_mmul in E.
  replace (dot (mv U (mv (Bmatrix rhombo) (V 0 0 1))) (mv U (mv (Bmatrix rhombo) (V 0 0 1))))
    with (dot (mv (Bmatrix rhombo) (V 0 0 1)) (mv (mmul (mT U) U) (mv (Bmatrix rhombo) (V 0 0 1)))) in E.
  2:{ rewrite mv_mmul, dot_mv. f_equal. }
  rewrite O in E.
  destruct (cell_facts rhombo C21_ex) as (ca & cb & cg & sa & sb & sg & r & F).
  rewrite <- (bc_gram rhombo _ _ _ _ _ _ _ F), (Bmatrix_eq rhombo _ _ _ _ _ _ _ F) in E.
  destruct (alphastar_cs rhombo _ _ _ _ _ _ _ F) as [_ S]. rewrite S in E.
  assert (P := PI_RGT_0). assert (B3 : (2 * PI / lc rhombo * (r / (sb * sg) / sa)) ^ 2 = (2 * PI / lc rhombo) ^ 2).
  { unfold form, dot, mv, mmul, mT, mI in E; simpl in E. unfold bc in E; simpl in E. simpl. lra. }
  destruct F as [Eca Ecb Ecg Esa Esb Esg Psa Psb Psg Pr Qa Qb Qg Qr La Lb Lc].
  unfold rhombo in *; simpl alpha in *; simpl beta in *; simpl gamma in *; simpl lc in *.
  rewrite rad60, cos_PI3 in Eca, Ecb, Ecg. subst ca cb cg.
  assert (sa ^ 2 = 3 / 4) by lra. assert (sb = sa) by congruence. assert (sg = sa) by congruence. clear Esa Esb Esg. subst sb sg.
  assert (Y : (r / (sa * sa) / sa) ^ 2 = 1).
  { apply (Rmult_eq_reg_l ((2 * PI / 5) ^ 2)); [|apply Rgt_not_eq; apply pow_lt; lra]. rewrite Rmult_1_r. etransitivity; [|exact B3]. ring. }
  replace ((r / (sa * sa) / sa) ^ 2) with (r ^ 2 / (sa ^ 2) ^ 3) in Y by (field; lra).
  rewrite H0, Qr in Y. lra.
Qed.
Print Assumptions C25_UB_preserves_Q_refuted.

(** C25.  U is computed from the indices of u as if they were Cartesian: UB takes the reciprocal
    vector u to the first axis for cubic cells, but not in general. *)
Theorem C25_u_along_first_axis_refuted : exists l u v UB, cell l /\
  mmul (mT (Bmatrix l)) (Bmatrix l) = Gstar l /\ UBmatrix l u v = Some UB /\ vy (mv UB u) <> 0.
Proof.
  set (l := mkL 1 2 1 90 90 90).
  assert (C : cell l) by (unfold cell, l; simpl; rewrite rad90, cos_PI2; repeat split; lra).
  assert (U0 := C25_Umatrix (V 1 1 0) (V 1 0 0)). unfold UBmatrix.
  destruct (Umatrix (V 1 1 0) (V 1 0 0)) as [U|] eqn:EU; [|exfalso; inversion U0; lra].
  exists l, (V 1 1 0), (V 1 0 0), (mmul U (Bmatrix l)). split; [exact C|].
  split; [apply C21_Bmatrix_right_angles; auto|]. split; [now rewrite EU|].
  unfold Umatrix, gram_schmidt in EU. clear U0.
  destruct (Req_EM_T (norm (V 1 1 0)) 0) as [|Z1]; [discriminate|].
  set (w := vsub (V 1 0 0) (vscal (dot (V 1 0 0) (V 1 1 0) / norm (V 1 1 0) ^ 2) (V 1 1 0))) in *.
  destruct (Req_EM_T (norm w) 0) as [|Z2]; [discriminate|]. inversion EU; subst U; clear EU.
  destruct (cell_facts l C) as (ca & cb & cg & sa & sb & sg & r & F).
  assert (P := PI_RGT_0).
  assert (W : w = V (1 / 2) (- (1 / 2)) 0).
  { unfold w. rewrite norm_sq. unfold dot; simpl. apply v3_eq; simpl; field. }
  rewrite (Bmatrix_eq l _ _ _ _ _ _ _ F).
  destruct F as [Eca Ecb Ecg Esa Esb Esg Psa Psb Psg Pr Qa Qb Qg Qr La Lb Lc].
  unfold l in *; simpl alpha in *; simpl beta in *; simpl gamma in *.
  rewrite rad90, ?cos_PI2, ?sin_PI2 in *. subst ca cb cg sa sb sg.
  assert (r = 1) by nra. subst r.
  assert (Nw : 0 < norm w) by (assert (X := norm_nonneg w); lra).
  rewrite mv_mmul. unfold bc. rewrite W in *. simpl.
  match goal with |- ?e <> 0 => replace e with (PI / (2 * norm (V (1 / 2) (- (1 / 2)) 0))) by (field; lra) end.
  apply Rgt_not_eq. apply Rdiv_lt_0_compat; lra.
Qed.
Print Assumptions C25_u_along_first_axis_refuted.
Theorem C25_u_along_first_axis_cubic : forall a u v UB, 0 < a -> UBmatrix (mkL a a a 90 90 90) u v = Some UB ->
  mv UB u = V (norm u * 2 * PI / a) 0 0 /\ vz (mv UB v) = 0.
Proof.
  intros a u v UB Ha H. set (l := mkL a a a 90 90 90) in *.
  assert (C : cell l) by (unfold cell, l; simpl; rewrite rad90, cos_PI2; repeat split; lra).
  unfold UBmatrix in H. assert (U0 := C25_Umatrix u v). destruct (Umatrix u v) as [U|]; [|discriminate].
  inversion H; subst UB; clear H. destruct U0 as (_ & _ & Uu & Uv & _).
  destruct (cell_facts l C) as (ca & cb & cg & sa & sb & sg & r & F).
  assert (P := PI_RGT_0).
  assert (B : Bmatrix l = mscal (2 * PI / a) mI).
  { rewrite (Bmatrix_eq l _ _ _ _ _ _ _ F). destruct (alphastar_cs l _ _ _ _ _ _ _ F) as [_ S]. rewrite S.
    destruct F as [Eca Ecb Ecg Esa Esb Esg Psa Psb Psg Pr Qa Qb Qg Qr La Lb Lc].
    unfold l in *; simpl alpha in *; simpl beta in *; simpl gamma in *.
    rewrite rad90, ?cos_PI2, ?sin_PI2 in *. subst ca cb cg sa sb sg. assert (r = 1) by nra. subst r.
    unfold bc. apply m3_eq; simpl; field; lra. }
  rewrite B. split.
  - replace (mv (mmul U (mscal (2 * PI / a) mI)) u) with (vscal (2 * PI / a) (mv U u)) by (apply v3_eq; simpl; ring).
    rewrite Uu. apply v3_eq; simpl; field; lra.
  - replace (mv (mmul U (mscal (2 * PI / a) mI)) v) with (vscal (2 * PI / a) (mv U v)) by (apply v3_eq; simpl; ring).
    simpl. simpl in Uv. rewrite Uv. ring.
Qed.
Print Assumptions C25_u_along_first_axis_cubic.

(** C25.  get_phi: vectors of the scattering plane are at 90 degrees for cubic cells, but not in
    general (the normal is computed from indices as if they were Cartesian). *)
Theorem C25_phi_cubic : forall a u v x y, 0 < a ->
  get_phi (mkL a a a 90 90 90) u v (vadd (vscal x u) (vscal y v)) = 90.
Proof.
  intros a u v x y Ha. set (l := mkL a a a 90 90 90).
  assert (C : cell l) by (unfold cell, l; simpl; rewrite rad90, cos_PI2; repeat split; lra).
  assert (P := PI_RGT_0). unfold get_phi. rewrite gabp by auto.
  assert (Z : form (Gstar l) (vadd (vscal x u) (vscal y v)) (cross u v) = 0).
  { destruct (cell_facts l C) as (ca & cb & cg & sa & sb & sg & r & F). rewrite (Gstar_eq l _ _ _ _ _ _ _ F).
    destruct F as [Eca Ecb Ecg Esa Esb Esg Psa Psb Psg Pr Qa Qb Qg Qr La Lb Lc].
    unfold l in *; simpl alpha in *; simpl beta in *; simpl gamma in *.
    rewrite rad90, ?cos_PI2, ?sin_PI2 in *. subst ca cb cg sa sb sg. assert (r = 1) by nra. subst r.
    unfold form, dot, mv, gs, cross, vadd, vscal; simpl. field. lra. }
  rewrite Z. replace (0 / sqrt (form (Gstar l) (vadd (vscal x u) (vscal y v)) (vadd (vscal x u) (vscal y v))) / sqrt (form (Gstar l) (cross u v) (cross u v))) with 0 by (unfold Rdiv; ring).
  rewrite acos_0. unfold deg. field. lra.
Qed.
Print Assumptions C25_phi_cubic.
Theorem C25_phi_in_plane_refuted : exists l u v, cell l /\ ~ collinear u v /\ get_phi l u v u <> 90.
Proof.
  set (l := mkL 1 2 1 90 90 90). exists l, (V 1 1 0), (V 0 0 1).
  assert (C : cell l) by (unfold cell, l; simpl; rewrite rad90, cos_PI2; repeat split; lra).
  split; auto. split; [exact C25_ex|]. unfold get_phi. intros H.
  assert (N1 : nz (V 1 1 0)) by (intros E; inversion E; lra).
  assert (N2 : nz (cross (V 1 1 0) (V 0 0 1))) by (intros E; inversion E; lra).
  destruct (C23_angle l _ _ C N1 N2) as (_ & _ & A). rewrite H, rad90, cos_PI2, Rmult_0_l in A.
  destruct (cell_facts l C) as (ca & cb & cg & sa & sb & sg & r & F). rewrite (Gstar_eq l _ _ _ _ _ _ _ F) in A.
  assert (P := PI_RGT_0). destruct F as [Eca Ecb Ecg Esa Esb Esg Psa Psb Psg Pr Qa Qb Qg Qr La Lb Lc].
  unfold l in *; simpl alpha in *; simpl beta in *; simpl gamma in *.
  rewrite rad90, ?cos_PI2, ?sin_PI2 in *. subst ca cb cg sa sb sg. assert (r = 1) by nra. subst r.
  unfold form, dot, mv, gs, cross in A; simpl in A. field_simplify in A. assert (0 < PI * PI) by (now apply Rmult_lt_0_compat). nra.
Qed.
Print Assumptions C25_phi_in_plane_refuted.

(** ** The metric tensors against actual basis vectors *)
(** Basis vectors of the cell: lengths a, b, c; alpha between b and c, beta between a and c, gamma
    between a and b. *)
Record basis (l : lattice) (A B C : v3) : Prop := {
  b_a : norm A = la l; b_b : norm B = lb l; b_c : norm C = lc l;
  b_al : dot B C = lb l * lc l * cos (rad (alpha l));
  b_be : dot A C = la l * lc l * cos (rad (beta l));
  b_ga : dot A B = la l * lb l * cos (rad (gamma l)) }.
(** Reciprocal vectors: scalar product 2 pi with their own axis, 0 with the others. *)
Definition dual (A B C A' B' C' : v3) : Prop :=
  dot A A' = 2 * PI /\ dot B A' = 0 /\ dot C A' = 0 /\
  dot A B' = 0 /\ dot B B' = 2 * PI /\ dot C B' = 0 /\
  dot A C' = 0 /\ dot B C' = 0 /\ dot C C' = 2 * PI.

(** C21.  G is the Gram matrix and volume the triple product of any basis with these lengths and
    angles; Gstar is the Gram matrix of its reciprocal vectors. *)
Theorem C21_basis_vectors : forall l A B C A' B' C', cell l -> basis l A B C -> dual A B C A' B' C' ->
  G l = mmul (rows3 A B C) (mT (rows3 A B C)) /\
  volume l = Rabs (dot A (cross B C)) /\
  Gstar l = mmul (rows3 A' B' C') (mT (rows3 A' B' C')) /\
  astar l = norm A' /\ bstar l = norm B' /\ cstar l = norm C' /\
  cos (rad (alphastar l)) * (norm B' * norm C') = dot B' C' /\
  cos (rad (betastar l)) * (norm A' * norm C') = dot A' C' /\
  cos (rad (gammastar l)) * (norm A' * norm B') = dot A' B'.
Proof.
  intros l A B C A' B' C' Hc Hb Hd. assert (P := PI_RGT_0). assert (P4 := four_pi2).
  destruct (cell_facts l Hc) as (ca & cb & cg & sa & sb & sg & r & F). assert (D := det_G_pos l _ _ _ _ _ _ _ F). clear F.
  assert (EG : G l = mmul (rows3 A B C) (mT (rows3 A B C))).
  { destruct Hb as [H1 H2 H3 H4 H5 H6]. assert (N1 := norm_sq A). assert (N2 := norm_sq B). assert (N3 := norm_sq C).
    rewrite H1 in N1. rewrite H2 in N2. rewrite H3 in N3. unfold dot in *. unfold G. apply m3_eq; cbn [m11 m12 m13 m21 m22 m23 m31 m32 m33 mmul mT rows3]; lra. }
  assert (Dt : det (rows3 A B C) = dot A (cross B C)) by (unfold det, dot, cross, rows3; simpl; ring).
  assert (Vl : volume l = Rabs (dot A (cross B C))).
  { unfold volume. rewrite EG, det_mul, det_T, Dt. apply sqrt_Rsqr_abs. }
  assert (RS : mmul (rows3 A B C) (mT (rows3 A' B' C')) = mscal (2 * PI) mI).
  { destruct Hd as (h1 & h2 & h3 & h4 & h5 & h6 & h7 & h8 & h9). unfold dot in *. apply m3_eq; cbn [m11 m12 m13 m21 m22 m23 m31 m32 m33 mmul mT rows3 mscal mI]; lra. }
  assert (DR : det (rows3 A B C) <> 0).
  { intros E. rewrite EG, det_mul, E in D. lra. }
  assert (SR : mT (rows3 A' B' C') = mscal (2 * PI) (inv (rows3 A B C))).
  { rewrite <- (mmul_I_l (mT (rows3 A' B' C'))), <- (inv_l (rows3 A B C)) by auto. rewrite mmul_assoc, RS.
    generalize (inv (rows3 A B C)). intros m. apply m3_eq; simpl; ring. }
  assert (RS2 : mmul (mT (rows3 A B C)) (rows3 A' B' C') = mscal (2 * PI) mI).
  { replace (mmul (mT (rows3 A B C)) (rows3 A' B' C')) with (mT (mmul (mT (rows3 A' B' C')) (rows3 A B C))) by (apply m3_eq; simpl; ring).
    rewrite SR. replace (mmul (mscal (2 * PI) (inv (rows3 A B C))) (rows3 A B C)) with (mscal (2 * PI) (mmul (inv (rows3 A B C)) (rows3 A B C)))
      by (generalize (inv (rows3 A B C)); intros m; apply m3_eq; simpl; ring).
    rewrite inv_l by auto. apply m3_eq; simpl; ring. }
  assert (ES : Gstar l = mmul (rows3 A' B' C') (mT (rows3 A' B' C'))).
  { unfold Gstar. assert (I : mscal (/ (4 * PI ^ 2)) (mmul (rows3 A' B' C') (mT (rows3 A' B' C'))) = inv (G l)).
    { apply inv_unique; [lra|]. rewrite EG.
      replace (mmul (mmul (rows3 A B C) (mT (rows3 A B C))) (mscal (/ (4 * PI ^ 2)) (mmul (rows3 A' B' C') (mT (rows3 A' B' C')))))
        with (mscal (/ (4 * PI ^ 2)) (mmul (rows3 A B C) (mmul (mmul (mT (rows3 A B C)) (rows3 A' B' C')) (mT (rows3 A' B' C'))))).
      2:{ rewrite !mmul_assoc. generalize (mmul (rows3 A' B' C') (mT (rows3 A' B' C'))). intros m. apply m3_eq; simpl; ring. }
      rewrite RS2. replace (mmul (mscal (2 * PI) mI) (mT (rows3 A' B' C'))) with (mscal (2 * PI) (mT (rows3 A' B' C'))) by (apply m3_eq; simpl; ring).
      replace (mmul (rows3 A B C) (mscal (2 * PI) (mT (rows3 A' B' C')))) with (mscal (2 * PI) (mmul (rows3 A B C) (mT (rows3 A' B' C')))) by (apply m3_eq; simpl; ring).
      rewrite RS. apply m3_eq; simpl; field; lra. }
    rewrite <- I. apply m3_eq; simpl; field; lra. }
  split; [exact EG|]. split; [exact Vl|]. split; [exact ES|].
  destruct (C21_reciprocal_parameters l Hc) as (Pa & Pb & Pc & _ & _ & _ & E). rewrite ES in E.
  assert (SQ : forall x v, 0 < x -> x ^ 2 = dot v v -> x = norm v).
  { intros x v Hx H. assert (N := norm_sq v). assert (N' := norm_nonneg v). rewrite <- N in H. nra. }
  assert (X1 : astar l = norm A') by (apply SQ; auto; apply (f_equal m11) in E; symmetry; exact E).
  assert (X2 : bstar l = norm B') by (apply SQ; auto; apply (f_equal m22) in E; symmetry; exact E).
  assert (X3 : cstar l = norm C') by (apply SQ; auto; apply (f_equal m33) in E; symmetry; exact E).
  repeat (split; [assumption|]).
  assert (Y1 := f_equal m23 E). assert (Y2 := f_equal m13 E). assert (Y3 := f_equal m12 E). clear E ES.
  unfold G in Y1, Y2, Y3. cbn [m11 m12 m13 m21 m22 m23 m31 m32 m33 mmul mT rows3 la lb lc alpha beta gamma] in Y1, Y2, Y3.
  rewrite X2, X3 in Y1. rewrite X1, X3 in Y2. rewrite X1, X2 in Y3. unfold dot. repeat split; lra.
Qed.
Print Assumptions C21_basis_vectors.

(** C22.  Q is the length of the reciprocal-lattice vector h a* + k b* + l c*. *)
Theorem C22_q_is_vector_length : forall l A B C A' B' C' h k m, cell l -> basis l A B C -> dual A B C A' B' C' ->
  nz (V h k m) -> get_q l (V h k m) = norm (vadd (vscal h A') (vadd (vscal k B') (vscal m C'))).
Proof.
  intros l A B C A' B' C' h k m Hc Hb Hd N. destruct (C21_basis_vectors l A B C A' B' C' Hc Hb Hd) as (_ & _ & ES & _).
  destruct (C22_q_times_d l _ Hc N) as (_ & Q & _ & E).
  assert (S : get_q l (V h k m) ^ 2 = norm (vadd (vscal h A') (vadd (vscal k B') (vscal m C'))) ^ 2).
  { rewrite E, norm_sq, ES. unfold form, dot, mv, vadd, vscal; simpl. ring. }
  assert (X := norm_nonneg (vadd (vscal h A') (vadd (vscal k B') (vscal m C')))). nra.
Qed.
Print Assumptions C22_q_is_vector_length.
Lemma norm_axis x : 0 < x -> norm (V x 0 0) = x /\ norm (V 0 x 0) = x /\ norm (V 0 0 x) = x.
Proof.
  intros H. unfold norm, dot; simpl. repeat split.
  - replace (x * x + 0 * 0 + 0 * 0) with (x * x) by ring. apply sqrt_square; lra.
  - replace (0 * 0 + x * x + 0 * 0) with (x * x) by ring. apply sqrt_square; lra.
  - replace (0 * 0 + 0 * 0 + x * x) with (x * x) by ring. apply sqrt_square; lra.
Qed.
Example C21_basis_ex : let l := mkL 2 3 4 90 90 90 in
  cell l /\ basis l (V 2 0 0) (V 0 3 0) (V 0 0 4) /\ dual (V 2 0 0) (V 0 3 0) (V 0 0 4) (V PI 0 0) (V 0 (2 * PI / 3) 0) (V 0 0 (PI / 2)).
Proof.
  simpl. split; [unfold cell; simpl; rewrite rad90, cos_PI2; repeat split; lra|]. split.
  - constructor; simpl; rewrite ?rad90, ?cos_PI2; try (apply norm_axis; lra); unfold dot; simpl; lra.
  - unfold dual, dot; simpl. repeat split; lra.
Qed.

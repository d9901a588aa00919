(** Properties of the sample's coordinate system (C43). *)
From Coq Require Import Reals Lra Psatz.
From Verif Require Import Base LinAlg LatticeModel LatticeProof LatticeProps SysModel.
Local Open Scope R_scope.

Lemma four_sines x y z : 4 * (sin ((x + y + z) / 2) * sin ((- x + y + z) / 2) * sin ((x - y + z) / 2) * sin ((x + y - z) / 2)) =
  1 - cos x ^ 2 - cos y ^ 2 - cos z ^ 2 + 2 * cos x * cos y * cos z.
Proof.
  assert (H1 : 2 * (sin ((x + y + z) / 2) * sin ((- x + y + z) / 2)) = cos x - cos (y + z)).
  { replace (cos x) with (cos ((x + y + z) / 2 - (- x + y + z) / 2)) by (f_equal; field).
    replace (cos (y + z)) with (cos ((x + y + z) / 2 + (- x + y + z) / 2)) by (f_equal; field).
    rewrite cos_minus, cos_plus. ring. }
  assert (H2 : 2 * (sin ((x - y + z) / 2) * sin ((x + y - z) / 2)) = cos (y - z) - cos x).
  { replace (cos (y - z)) with (cos ((x + y - z) / 2 - (x - y + z) / 2)) by (f_equal; field).
    replace (cos x) with (cos ((x + y - z) / 2 + (x - y + z) / 2)) by (f_equal; field).
    rewrite cos_minus, cos_plus. ring. }
  transitivity ((cos x - cos (y + z)) * (cos (y - z) - cos x)); [rewrite <- H1, <- H2; ring|].
  rewrite cos_minus, cos_plus. assert (Sy := sc y). assert (Sz := sc z).
  transitivity (- cos x ^ 2 + 2 * cos x * cos y * cos z - cos y ^ 2 * cos z ^ 2 + sin y ^ 2 * sin z ^ 2); [ring|rewrite Sy, Sz; ring].
Qed.

(** C43.  _star: V is the volume of the cell, Vstar that of the reciprocal cell, and the reciprocal lattice measures
    Miller indices by the reciprocal metric: lengths of vectors are 2 pi / d. *)
Theorem C43_star : forall s, cell s -> let l := fst (get_lattice s) in
  fst (fst (star l)) = volume s /\ snd (fst (star l)) = reciprocal_volume s /\
  (forall v w, scalar v w l = form (G s) v w) /\ (forall v w, scalar v w (snd (get_lattice s)) = form (Gstar s) v w) /\
  (forall hkl, hkl <> V 0 0 0 -> modvec hkl (snd (get_lattice s)) = get_q s hkl).
Proof.
  intros s H l. assert (Hv : star_V l = volume s).
  { destruct (cell_facts s H) as (ca & cb & cg & sa & sb & sg & r & F). rewrite (volume_eq s _ _ _ _ _ _ _ F). destruct F as [Eca Ecb Ecg Esa Esb Esg Psa Psb Psg Pr Qa Qb Qg Qr La Lb Lc].
    unfold star_V, l, get_lattice; cbn [fst ra rb rc ralpha rbeta rgamma].
    assert (E := four_sines (rad (alpha s)) (rad (beta s)) (rad (gamma s))). rewrite Eca, Ecb, Ecg, <- Qr in E.
    replace (sin ((rad (alpha s) + rad (beta s) + rad (gamma s)) / 2) * sin ((- rad (alpha s) + rad (beta s) + rad (gamma s)) / 2) * sin ((rad (alpha s) - rad (beta s) + rad (gamma s)) / 2) * sin ((rad (alpha s) + rad (beta s) - rad (gamma s)) / 2))
      with (Rsqr (r / 2)) by (unfold Rsqr; lra). rewrite sqrt_Rsqr by lra. field. }
  assert (P := PI_RGT_0). destruct (C21_metric_duality s H) as (_ & _ & _ & Vp & Vv).
  assert (Hs : forall v w, scalar v w (snd (get_lattice s)) = form (Gstar s) v w).
  { destruct (C21_reciprocal_parameters s H) as (_ & _ & _ & _ & _ & _ & E). intros v w. rewrite E.
    assert (El : snd (get_lattice s) = mkRL (astar s) (bstar s) (cstar s) (rad (alphastar s)) (rad (betastar s)) (rad (gammastar s))).
    { unfold get_lattice. fold l. cbn [snd star]. unfold l in Hv |- *. unfold get_lattice in *. cbn [fst] in *. rewrite Hv. cbn [ra rb rc ralpha rbeta rgamma].
      assert (RD : forall x, rad (deg x) = x) by (intros; unfold rad, deg; field; lra).
      unfold alphastar, betastar, gammastar. rewrite !RD. unfold alphastar_rad, betastar_rad, gammastar_rad, star_angle, astar, bstar, cstar.
      f_equal; field; lra. }
    rewrite El. unfold scalar, form, dot, mv, G; cbn -[cos rad pow]. ring. }
  split; [exact Hv|]. split; [cbn [star fst snd]; rewrite Hv, <- Vv; field; lra|]. split; [|split; auto].
  - intros v w. unfold scalar, form, dot, mv, G, l, get_lattice; cbn -[cos rad pow]. ring.
  - intros hkl N. destruct (C22_q_times_d s hkl H N) as (_ & Qp & _ & Q2). unfold modvec. rewrite Hs, <- Q2, <- Rsqr_pow2. apply sqrt_Rsqr. lra.
Qed.
Print Assumptions C43_star.
Example C43_star_ex : cell rhombo /\ V 1 2 (-1) <> V 0 0 0.
Proof. split; [exact C21_ex|]. intros E. injection E. lra. Qed.

(** Orthonormal with respect to a form. *)
Definition orthonormal (m : m3) (x y z : v3) : Prop :=
  form m x x = 1 /\ form m y y = 1 /\ form m z z = 1 /\ form m x y = 0 /\ form m x z = 0 /\ form m y z = 0.


Section S.
Context (s : lattice) (H : cell s).
Local Notation m := (Gstar s).
Local Notation r := (snd (get_lattice s)).
Lemma sys_scalar v w : scalar v w r = form m v w.
Proof. now destruct (C43_star s H) as (_ & _ & _ & E & _). Qed.
Lemma sys_pos a : a <> V 0 0 0 -> 0 < form m a a.
Proof. destruct (cell_facts s H) as (ca & cb & cg & sa & sb & sg & r0 & F). apply (form_pos s _ _ _ _ _ _ _ F). Qed.
Lemma sys_sym a b : form m a b = form m b a.
Proof. destruct (cell_facts s H) as (ca & cb & cg & sa & sb & sg & r0 & F). apply (form_sym s _ _ _ _ _ _ _ F). Qed.
Lemma fsub_l a b c : form m (vsub a b) c = form m a c - form m b c.
Proof. unfold form, dot, mv, vsub; simpl; ring. Qed.
Lemma fscal_l k a c : form m (vscal k a) c = k * form m a c.
Proof. unfold form, dot, mv, vscal; simpl; ring. Qed.
Lemma fsub_r a b c : form m c (vsub a b) = form m c a - form m c b.
Proof. unfold form, dot, mv, vsub; simpl; ring. Qed.
Lemma fscal_r k a c : form m c (vscal k a) = k * form m c a.
Proof. unfold form, dot, mv, vscal; simpl; ring. Qed.
Lemma v3_dec (a : v3) : {a = V 0 0 0} + {a <> V 0 0 0}.
Proof.
  destruct a as [a b c]. destruct (Req_EM_T a 0); [destruct (Req_EM_T b 0); [destruct (Req_EM_T c 0)|]|]; subst; auto; right; intros E; injection E; intros; congruence.
Qed.
Lemma sys_zero : form m (V 0 0 0) (V 0 0 0) = 0.
Proof. unfold form, dot, mv; simpl; ring. Qed.
Lemma sys_mod a : modvec a r = sqrt (form m a a).
Proof. unfold modvec. now rewrite sys_scalar. Qed.
Lemma unit_form a : a <> V 0 0 0 -> let k := sqrt (form m a a) in 0 < k /\ form m (vscal (/ k) a) (vscal (/ k) a) = 1.
Proof.
  intros N k. assert (P := sys_pos a N). assert (K : 0 < k) by (now apply sqrt_lt_R0). split; auto. rewrite fscal_l, fscal_r.
  replace (form m a a) with (k * k) by (apply sqrt_def; lra). field. lra.
Qed.

Lemma sys_spec u v :
  match standard_system s u v with
  | Ok None => u = V 0 0 0
  | Err e => e = ScatteringTriangleError /\ u <> V 0 0 0 /\ collinear u v
  | Ok (Some (x, y, z)) => ~ collinear u v /\ orthonormal m x y z /\ 0 < det (rows3 x y z) /\
      u = vscal (sqrt (form m u u)) x /\ exists a b, 0 < b /\ v = vadd (vscal a x) (vscal b y)
  end.
Proof.
  unfold standard_system. cbv zeta. rewrite !sys_mod. set (k := sqrt (form m u u)).
  destruct (Req_EM_T k 0) as [Z|Z].
  { destruct (v3_dec u) as [->|N]; auto. exfalso. destruct (unit_form u N) as [K _]. fold k in K. lra. }
  assert (N : u <> V 0 0 0). { intros ->. apply Z. unfold k. rewrite sys_zero. apply sqrt_0. }
  destruct (unit_form u N) as [K Ux]. fold k in K, Ux. set (x := vscal (/ k) u) in *. rewrite sys_scalar. set (y0 := vsub v (vscal (form m v x) x)).
  assert (Eu : u = vscal k x) by (apply v3_eq; simpl; field; lra).
  assert (Cxy : cross u y0 = cross u v). { unfold y0. rewrite Eu. apply v3_eq; simpl; ring. }
  cbv zeta. destruct (Rle_dec (sqrt (form m y0 y0)) 0) as [L|L].
  { split; auto. split; auto. destruct (v3_dec y0) as [E|N0].
    - unfold collinear. rewrite <- Cxy, E. apply v3_eq; simpl; ring.
    - destruct (unit_form y0 N0). lra. }
  assert (N0 : y0 <> V 0 0 0). { intros E. apply L. rewrite E, sys_zero, sqrt_0. lra. }
  destruct (unit_form y0 N0) as [K0 Uy]. set (k0 := sqrt (form m y0 y0)) in *. set (y := vscal (/ k0) y0) in *.
  assert (Oxy : form m x y = 0). { unfold y. rewrite fscal_r. unfold y0. rewrite fsub_r, fscal_r, Ux, (sys_sym x v). ring. }
  assert (Oyx : form m y x = 0) by (rewrite sys_sym; auto).
  assert (Ec : cross u v = vscal (k * k0) (cross x y)). { rewrite <- Cxy. apply v3_eq; unfold y, x; simpl; field; lra. }
  assert (Nc : cross x y <> V 0 0 0).
  { intros E. apply N0. assert (E1 : cross x y0 = V 0 0 0). { replace y0 with (vscal k0 y) by (apply v3_eq; simpl; field; lra). rewrite <- (v3_eq (vscal k0 (cross x y)) (cross x (vscal k0 y))) by (simpl; ring). rewrite E. apply v3_eq; simpl; ring. }
    (* y0 parallel to x and orthogonal to it *)
    assert (Px : 0 < dot x x). { apply dot_pos. intros Ex. rewrite Ex, sys_zero in Ux. lra. }
    assert (Ey : vscal (dot x x) y0 = vscal (dot x y0) x).
    { assert (B : cross x (cross x y0) = vsub (vscal (dot x y0) x) (vscal (dot x x) y0)) by (apply v3_eq; unfold dot; simpl; ring).
      rewrite E1 in B. injection B. intros B3 B2 B1. apply v3_eq; simpl; lra. }
    assert (O : form m x y0 = 0). { replace y0 with (vscal k0 y) by (apply v3_eq; simpl; field; lra). rewrite fscal_r, Oxy. ring. }
    apply (f_equal (fun a => form m x a)) in Ey. rewrite !fscal_r, O, Ux in Ey. assert (D0 : dot x y0 = 0) by lra.
    apply v3_eq; simpl; apply (Rmult_eq_reg_l (dot x x)); try lra.
    - assert (B : cross x (cross x y0) = vsub (vscal (dot x y0) x) (vscal (dot x x) y0)) by (apply v3_eq; unfold dot; simpl; ring). rewrite E1, D0 in B. injection B. intros. lra.
    - assert (B : cross x (cross x y0) = vsub (vscal (dot x y0) x) (vscal (dot x x) y0)) by (apply v3_eq; unfold dot; simpl; ring). rewrite E1, D0 in B. injection B. intros. lra.
    - assert (B : cross x (cross x y0) = vsub (vscal (dot x y0) x) (vscal (dot x x) y0)) by (apply v3_eq; unfold dot; simpl; ring). rewrite E1, D0 in B. injection B. intros. lra. }
  assert (Ncol : ~ collinear u v). { unfold collinear. rewrite Ec. intros E. apply Nc. injection E. intros E3 E2 E1. assert (0 < k * k0) by (now apply Rmult_lt_0_compat). apply v3_eq; simpl; nra. }
  replace (V (vy x * vz y - vy y * vz x) (vz x * vx y - vz y * vx x) (- vy x * vx y + vy y * vx x)) with (cross x y) by (apply v3_eq; simpl; ring).
  rewrite !sys_scalar. set (w := cross x y) in *. set (w1 := vsub w (vscal (form m w x) x)). set (w2 := vsub w1 (vscal (form m w1 y) y)).
  assert (Dw : dot w w2 = dot w w). { unfold w2, w1, w, dot; simpl; ring. }
  assert (Pw : 0 < dot w w) by (now apply dot_pos).
  assert (N2 : w2 <> V 0 0 0). { intros E. rewrite E in Dw. unfold dot at 1 in Dw. simpl in Dw. lra. }
  destruct (unit_form w2 N2) as [K2 Uz]. set (k2 := sqrt (form m w2 w2)) in *.
  assert (O1x : form m x w2 = 0). { unfold w2. rewrite fsub_r, fscal_r, Oxy. unfold w1. rewrite fsub_r, fscal_r, Ux, (sys_sym x w). ring. }
  assert (O1y : form m y w2 = 0). { unfold w2. rewrite fsub_r, fscal_r, Uy, (sys_sym y w1). ring. }
  split; auto. split.
  { repeat split; auto; rewrite fscal_r; [rewrite O1x|rewrite O1y]; ring. }
  split.
  { replace (det (rows3 x y (vscal (/ k2) w2))) with (/ k2 * dot w w2) by (unfold det, rows3, w, dot; simpl; ring). rewrite Dw. apply Rmult_lt_0_compat; auto. now apply Rinv_0_lt_compat. }
  split; auto. exists (form m v x), k0. split; auto. apply v3_eq; unfold y, y0; simpl; field; lra.
Qed.
End S.

(** C43.  For every cell and non-collinear orienting vectors the three axes are orthonormal in the reciprocal metric and
    right-handed, the first is along orient1, and orient2 lies in the plane of the first two on the positive side. *)
Theorem C43_axes : forall s u v, cell s -> ~ collinear u v -> exists x y z, standard_system s u v = Ok (Some (x, y, z)) /\
  orthonormal (Gstar s) x y z /\ 0 < det (rows3 x y z) /\ u = vscal (get_q s u) x /\ exists a b, 0 < b /\ v = vadd (vscal a x) (vscal b y).
Proof.
  intros s u v C N. assert (S := sys_spec s C u v). destruct (standard_system s u v) as [[[[x y] z]|]|e].
  - destruct S as (_ & O & D & Eu & Ev). exists x, y, z. split; auto. split; auto. split; auto. split; auto.
    replace (get_q s u) with (sqrt (form (Gstar s) u u)); auto.
    assert (Nu : u <> V 0 0 0). { intros ->. apply N. unfold collinear. apply v3_eq; simpl; ring. }
    destruct (C22_q_times_d s u C Nu) as (_ & Qp & _ & Q2). rewrite <- Q2, <- Rsqr_pow2. apply sqrt_Rsqr. lra.
  - subst u. exfalso. apply N. unfold collinear. apply v3_eq; simpl; ring.
  - now destruct S.
Qed.
Print Assumptions C43_axes.
(** A triclinic cell with non-orthogonal orienting vectors. *)
Example C43_axes_ex : cell rhombo /\ ~ collinear (V 1 0 0) (V 1 1 0).
Proof. split; [exact C21_ex|]. unfold collinear. intros E. injection E. intros. simpl in *. lra. Qed.

(** C43.  Collinear vectors are rejected, unless the first is zero: then all axes are nan and nothing is raised. *)
Theorem C43_collinear : forall s u v, cell s -> collinear u v ->
  standard_system s u v = Err ScatteringTriangleError /\ u <> V 0 0 0 \/ standard_system s u v = Ok None /\ u = V 0 0 0.
Proof.
  intros s u v C N. assert (S := sys_spec s C u v). destruct (standard_system s u v) as [[[[x y] z]|]|e].
  - now destruct S.
  - now right.
  - left. destruct S as (-> & Nu & _). auto.
Qed.
Print Assumptions C43_collinear.
Example C43_collinear_ex : cell rhombo /\ collinear (V 1 0 2) (V (-2) 0 (-4)).
Proof. split; [exact C21_ex|]. apply v3_eq; simpl; lra. Qed.
Theorem C43_zero_is_not_rejected_refuted : exists s u v, cell s /\ collinear u v /\ standard_system s u v = Ok None.
Proof.
  exists rhombo, (V 0 0 0), (V 1 0 0). assert (Z : collinear (V 0 0 0) (V 1 0 0)) by (apply v3_eq; simpl; ring).
  split; [exact C21_ex|]. split; auto. destruct (C43_collinear rhombo _ _ C21_ex Z) as [[_ N]|[E _]]; auto. congruence.
Qed.
Print Assumptions C43_zero_is_not_rejected_refuted.

(** C43.  The components of the direction of Q: its length is 2 pi / d, the squares of the two in-plane components add up to
    one minus the square of the component along the third axis, so to one exactly if Q lies in the plane of orient1 and
    orient2; and orient1 itself has components (1, 0). *)
Theorem C43_components : forall s u v Q, cell s -> ~ collinear u v -> Q <> V 0 0 0 -> exists q a b,
  in_system s u v Q = Ok (Some (q, a, b)) /\ q = get_q s Q /\ a ^ 2 + b ^ 2 <= 1 /\ (a ^ 2 + b ^ 2 = 1 <-> dot Q (cross u v) = 0) /\
  (forall k, 0 < k -> Q = vscal k u -> a = 1 /\ b = 0).
Proof.
  intros s u v Q C N NQ. assert (S := sys_spec s C u v). unfold in_system. destruct (standard_system s u v) as [[[[x y] z]|]|e]; [|subst u; exfalso; apply N; unfold collinear; apply v3_eq; simpl; ring|now destruct S].
  destruct S as (_ & (Oxx & Oyy & Ozz & Oxy & Oxz & Oyz) & D & Eu & [ca [cb [Pb Ev]]]). cbn [bind].
  destruct (C43_star s C) as (_ & _ & _ & Hs & Hm). rewrite Hm by auto. destruct (C22_q_times_d s Q C NQ) as (_ & Qp & _ & Q2).
  destruct (Req_EM_T (get_q s Q) 0); [lra|]. set (q := get_q s Q) in *. set (uq := V (vx Q / q) (vy Q / q) (vz Q / q)). rewrite !Hs.
  assert (Eq : Q = vscal q uq) by (apply v3_eq; unfold uq; simpl; field; lra).
  assert (Uq : form (Gstar s) uq uq = 1). { apply (Rmult_eq_reg_l (q ^ 2)); [|apply Rgt_not_eq, pow_lt; lra]. transitivity (form (Gstar s) Q Q); [|rewrite <- Q2; ring]. rewrite Eq. rewrite fscal_l, fscal_r. ring. }
  set (P := rows3 x y z). set (m := Gstar s) in *.
  assert (Sym : forall a b, form m a b = form m b a) by (intros; now apply sys_sym).
  assert (PI : mmul (mmul P m) (mT P) = mI).
  { assert (Oyx := Oxy). assert (Ozx := Oxz). assert (Ozy := Oyz). rewrite Sym in Oyx, Ozx, Ozy. clearbody m.
    apply m3_eq; unfold P; simpl; [rewrite <- Oxx|rewrite <- Oxy|rewrite <- Oxz|rewrite <- Oyx|rewrite <- Oyy|rewrite <- Oyz|rewrite <- Ozx|rewrite <- Ozy|rewrite <- Ozz];
      unfold form, dot; simpl; ring. }
  assert (Dp : det P <> 0) by (unfold P; lra). assert (Dpm : det (mmul P m) <> 0).
  { intros Z. apply (f_equal det) in PI. rewrite det_mul, Z, det_I in PI. lra. }
  assert (PI2 : mmul (mT P) (mmul P m) = mI). { rewrite (inv_unique _ _ Dpm PI). now apply inv_l. }
  assert (Pars : form m x uq ^ 2 + form m y uq ^ 2 + form m z uq ^ 2 = 1).
  { rewrite <- Uq. transitivity (dot (mv (mmul P m) uq) (mv (mmul P m) uq)); [unfold form, dot, P; simpl; ring|].
    transitivity (dot (mv m uq) (mv (mmul (mT P) (mmul P m)) uq)); [unfold dot, P; simpl; ring|]. rewrite PI2.
    unfold form, dot, mI; simpl. ring. }
  assert (Zc : dot Q (cross u v) = 0 <-> form m z uq = 0).
  { assert (Kx : 0 < sqrt (form m u u)). { apply sqrt_lt_R0, sys_pos; auto. intros ->. apply N. unfold collinear. apply v3_eq; simpl; ring. } set (k := sqrt (form m u u)) in *.
    assert (E1 : dot Q (cross u v) = q * k * cb * dot uq (cross x y)). { rewrite Eu, Ev, Eq. unfold dot; simpl. ring. }
    assert (E2 : dot uq (cross x y) = form m z uq * det P).
    { assert (Ex : uq = mv (mT P) (mv (mmul P m) uq)). { rewrite <- mv_mmul, PI2. apply v3_eq; simpl; ring. }
      rewrite Ex at 1. unfold P, det, dot, form; simpl. unfold dot; simpl. ring. }
    rewrite E1, E2. assert (0 < q * k * cb) by (apply Rmult_lt_0_compat; [apply Rmult_lt_0_compat|]; auto). split; intros Z.
    - destruct (Rmult_integral _ _ Z) as [Z1|Z1]; [lra|]. destruct (Rmult_integral _ _ Z1) as [|]; auto. lra.
    - rewrite Z. ring. }
  exists q, (form m x uq), (form m y uq). split; [reflexivity|]. split; [reflexivity|]. split; [nra|]. split.
  - rewrite Zc. split; intros; nra.
  - intros k Kp EQ. assert (NU : u <> V 0 0 0). { intros ->. apply N. unfold collinear. apply v3_eq; simpl; ring. }
    assert (Eu2 : uq = x).
    { assert (Ku : 0 < sqrt (form m u u)) by (apply sqrt_lt_R0, sys_pos; auto). set (ku := sqrt (form m u u)) in *.
      assert (X : uq = vscal (k * ku / q) x). { apply v3_eq; unfold uq; rewrite EQ, Eu; simpl; field; lra. }
      assert (X1 : k * ku / q = 1). { assert (0 < k * ku / q) by (apply Rdiv_lt_0_compat; auto; now apply Rmult_lt_0_compat). rewrite X in Uq. unfold m in Uq. rewrite fscal_l, fscal_r in Uq. fold m in Uq. rewrite Oxx in Uq. nra. }
      rewrite X, X1. apply v3_eq; simpl; ring. }
    rewrite Eu2. rewrite (Sym y x). auto.
Qed.
Print Assumptions C43_components.
Example C43_components_ex : dot (V 2 1 0) (cross (V 1 0 0) (V 1 1 0)) = 0 /\ dot (V 0 0 1) (cross (V 1 0 0) (V 1 1 0)) <> 0.
Proof. unfold dot; simpl. split; lra. Qed.

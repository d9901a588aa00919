(** C68: the time-of-flight resolution matrix in reciprocal lattice units. *)
From Coq Require Import String List ZArith Reals Lra Lia Psatz.
From Verif Require Import Base LinAlg EnergyModel EnergyProps LatticeModel LatticeProof LatticeProps KinModel KinProps MatModel MatInv EllipseProps CompModel TofModel TofProps TofCovProps TofDefProps.
Import ListNotations.
Local Open Scope R_scope.
Local Notation sum := MatInv.sum.

(** A displacement of [x] reciprocal lattice units (and x_3 meV) from the point [Q], in the frame whose first axis is along the horizontal
    part of the scattering vector [UB Q], whose second is horizontal and whose third is vertical: lengths, scalar and cross products. *)
Definition along (UB : m3) (Q : v3) (x : vec) : vec :=
  let q := mv UB Q in let p := mv UB (V (x 0%nat) (x 1%nat) (x 2%nat)) in let n := sqrt (vx q * vx q + vy q * vy q) in
  fun i => nth i [(vx q * vx p + vy q * vy p) / n; (vx q * vy p - vy q * vx p) / n; vz p; x 3%nat] 0.

(** For a cubic cell with u and v along the first two axes, the matrix is the one of the resolution function: the quadratic form of a
    displacement is that of its components in the frame of the scattering vector. *)
Theorem C68_cubic UB s Q rm x : UB = mscal s mI -> 0 < s -> symm 4 rm -> 0 < vx Q * vx Q + vy Q * vy Q -> qf 4 (rms_of UB Q rm) x = qf 4 rm (along UB Q x).
Proof.
  intros -> Hs Sm HQ. unfold rms_of. cbv zeta. set (q := mv (mscal s mI) Q). set (T := mul 4 (rot4 (atan2 (vy q) (vx q))) (embed (mscal s mI))). rewrite qf_congr. apply qf_ext; [apply eqm_refl|].
  assert (Eq : vx q = s * vx Q /\ vy q = s * vy Q) by (unfold q, mv, mscal, mI; cbn [vx vy vz m11 m12 m13 m21 m22 m23 m31 m32 m33]; split; ring). destruct Eq as (E1 & E2).
  destruct (atan2_polar (vy q) (vx q)) as (A & B). set (n := sqrt (vx q * vx q + vy q * vy q)) in *. set (a := atan2 (vy q) (vx q)) in *.
  assert (Pn : 0 < n). { apply sqrt_lt_R0. rewrite E1, E2. replace (s * vx Q * (s * vx Q) + s * vy Q * (s * vy Q)) with (s * s * (vx Q * vx Q + vy Q * vy Q)) by ring. apply Rmult_lt_0_compat; [nra|exact HQ]. }
  assert (Ca : cos a = vx q / n) by (rewrite <- A; field; lra). assert (Sa : sin a = vy q / n) by (rewrite <- B; field; lra).
  intros i Hi. assert (Ci : (i = 0 \/ i = 1 \/ i = 2 \/ i = 3)%nat) by lia. unfold along. cbv zeta. fold q n.
  destruct Ci as [->|[->|[->| ->]]]; unfold mulv, tr, T, mul, rot4, embed, mscal, mI, mx, mv; cbn [MatInv.sum nth vx vy vz m11 m12 m13 m21 m22 m23 m31 m32 m33]; rewrite ?Ca, ?Sa; field; lra.
Qed.
Print Assumptions C68_cubic.

Lemma ortho_UB a b c : 0 < a -> 0 < b -> 0 < c -> UBmatrix (mkL a b c 90 90 90) (V 1 0 0) (V 0 1 0) = Some (M (2 * PI / a) 0 0 0 (2 * PI / b) 0 0 0 (2 * PI / c)).
Proof.
  intros A B C. assert (P := PI_RGT_0). set (l := mkL a b c 90 90 90).
  assert (Cl : cell l) by (unfold cell, l; simpl; rewrite rad90, cos_PI2; repeat split; lra). destruct (cell_facts l Cl) as (ca & cb & cg & sa & sb & sg & r & F).
  assert (EB : Bmatrix l = M (2 * PI / a) 0 0 0 (2 * PI / b) 0 0 0 (2 * PI / c)).
  { rewrite (Bmatrix_eq l _ _ _ _ _ _ _ F). destruct (alphastar_cs l _ _ _ _ _ _ _ F) as [_ S']. rewrite S'. destruct F as [Eca Ecb Ecg Esa Esb Esg Psa Psb Psg Pr Qa Qb Qg Qr La Lb Lc].
    unfold l in *; simpl alpha in *; simpl beta in *; simpl gamma in *. rewrite rad90, ?cos_PI2, ?sin_PI2 in *. subst ca cb cg sa sb sg. assert (r = 1) by nra. subst r. unfold bc. apply m3_eq; simpl; field; lra. }
  unfold UBmatrix, Umatrix, gram_schmidt. cbv zeta. assert (N1 : norm (V 1 0 0) = 1) by (unfold norm, dot; simpl; replace (1 * 1 + 0 * 0 + 0 * 0) with 1 by ring; apply sqrt_1). rewrite N1.
  assert (EV : vsub (V 0 1 0) (vscal (dot (V 0 1 0) (V 1 0 0) / 1 ^ 2) (V 1 0 0)) = V 0 1 0) by (unfold vsub, vscal, dot; cbn [vx vy vz]; f_equal; field). rewrite EV.
  assert (N2 : norm (V 0 1 0) = 1) by (unfold norm, dot; simpl; replace (0 * 0 + 1 * 1 + 0 * 0) with 1 by ring; apply sqrt_1). rewrite N2.
  destruct (Req_EM_T 1 0); [lra|]. f_equal. rewrite EB. apply m3_eq; simpl; field; lra.
Qed.
Example C68_cubic_ex : exists UB, UBmatrix (mkL 4 4 4 90 90 90) (V 1 0 0) (V 0 1 0) = Some UB /\ UB = mscal (2 * PI / 4) mI /\ 0 < 2 * PI / 4.
Proof.
  assert (P := PI_RGT_0). eexists. split; [apply ortho_UB; lra|]. split; [apply m3_eq; simpl; field|lra].
Qed.

(** The unit displacements. *)
Definition unit (i : nat) : vec := fun j => if Nat.eqb i j then 1 else 0.
(** For an orthorhombic cell the two displacements swap scales: at (0,k,0) a displacement along h is weighted with the scale of b*, and one along k
    with that of a*, instead of the other way round. *)
Theorem C68_swapped a b c k rm UB : 0 < a -> 0 < b -> 0 < c -> 0 < k -> UBmatrix (mkL a b c 90 90 90) (V 1 0 0) (V 0 1 0) = Some UB ->
  qf 4 (rms_of UB (V 0 k 0) rm) (unit 0) = (a / b) ^ 2 * qf 4 rm (along UB (V 0 k 0) (unit 0)) /\
  qf 4 (rms_of UB (V 0 k 0) rm) (unit 1) = (b / a) ^ 2 * qf 4 rm (along UB (V 0 k 0) (unit 1)).
Proof.
  intros A B C K E. assert (P := PI_RGT_0). rewrite ortho_UB in E by assumption. apply Some_inj in E. subst UB. set (UB := M _ _ _ _ _ _ _ _ _).
  assert (Eq : mv UB (V 0 k 0) = V 0 (2 * PI / b * k) 0) by (unfold UB; apply v3_eq; simpl; ring).
  assert (Pb : 0 < 2 * PI / b * k) by (apply Rmult_lt_0_compat; [apply Rdiv_lt_0_compat; lra|lra]).
  destruct (atan2_polar (2 * PI / b * k) 0) as (Ca & Sa). replace (0 * 0 + 2 * PI / b * k * (2 * PI / b * k)) with ((2 * PI / b * k) ^ 2) in Ca, Sa by ring. rewrite sqrt_pow2 in Ca, Sa by lra.
  assert (C0 : cos (atan2 (2 * PI / b * k) 0) = 0) by (apply (Rmult_eq_reg_l (2 * PI / b * k)); lra). assert (S1 : sin (atan2 (2 * PI / b * k) 0) = 1) by (apply (Rmult_eq_reg_l (2 * PI / b * k)); lra).
  assert (G : forall x t, (forall i, (i < 4)%nat -> mulv 4 (tr (mul 4 (rot4 (atan2 (2 * PI / b * k) 0)) (embed UB))) x i = t * along UB (V 0 k 0) x i) -> qf 4 (rms_of UB (V 0 k 0) rm) x = t ^ 2 * qf 4 rm (along UB (V 0 k 0) x)).
  { intros x t H. unfold rms_of. cbv zeta. rewrite Eq. cbn [vx vy]. rewrite qf_congr. rewrite (qf_ext 4 rm rm _ (fun i => t * along UB (V 0 k 0) x i) (eqm_refl _ _ _) H). unfold qf. cbn [MatInv.sum]. ring. }
  assert (Sq : sqrt ((2 * PI / b * k) ^ 2) = 2 * PI / b * k) by (apply sqrt_pow2; lra).
  split; apply G; intros i Hi; assert (Ci : (i = 0 \/ i = 1 \/ i = 2 \/ i = 3)%nat) by lia; unfold along; cbv zeta; rewrite Eq; cbn [vx vy vz];
    replace (0 * 0 + 2 * PI / b * k * (2 * PI / b * k)) with ((2 * PI / b * k) ^ 2) by ring; rewrite Sq;
    destruct Ci as [->|[->|[->| ->]]]; unfold mulv, tr, mul, rot4, embed, UB, mx, mv, unit; cbn [MatInv.sum Nat.eqb nth vx vy vz m11 m12 m13 m21 m22 m23 m31 m32 m33]; rewrite ?C0, ?S1; field; lra.
Qed.
Print Assumptions C68_swapped.

(** So the matrix of the default instrument (a = 6, b = 7, c = 8) in reciprocal lattice units is not that of the resolution function at (0,1,0):
    displacements along h get 36/49 and those along k 49/36 of their weight. *)
Theorem C68_refuted : exists c k I r0 rm rms UB, physical c /\ make (kinetic c 1) NoChoppers None None [] 0 0 no_overrides = Ok I /\
  calc_point c k I (V 0 1 0) 0 = (Numbers r0 rm, Some rms) /\ UBmatrix (s_cell (f_sample I)) (s_u (f_sample I)) (s_v (f_sample I)) = Some UB /\
  qf 4 rms (unit 0) < qf 4 rm (along UB (V 0 1 0) (unit 0)) /\ qf 4 rm (along UB (V 0 1 0) (unit 1)) < qf 4 rms (unit 1).
Proof.
  assert (P := PI_RGT_0). assert (P4 := PI_4). assert (Ph : physical ex_c) by apply C17_ex.
  assert (Sq : 2 * PI * sqrt (0 ^ 2 / 36 + 1 ^ 2 / 49) = 2 * PI / 7). { replace (0 ^ 2 / 36 + 1 ^ 2 / 49) with ((1 / 7) ^ 2) by field. rewrite sqrt_pow2 by lra. field. }
  destruct (C44_default ex_c ex_k (kinetic ex_c 1) _ 0 1 0 1 1 Ph ltac:(cbn; lra) ltac:(cbn; lra) ltac:(cbn; lra) eq_refl ltac:(lra) ltac:(lra) eq_refl ltac:(lra) ltac:(ring)) as (A & _); [rewrite Sq; lra|rewrite Sq; lra|].
  destruct A as (r0 & m & H & Pd & _). { rewrite Sq. replace (1 - 1) with 0 by ring. rewrite Rabs_R0. lra. }
  assert (EU := ortho_UB 6 7 8 ltac:(lra) ltac:(lra) ltac:(lra)). set (UB := M _ _ _ _ _ _ _ _ _) in EU.
  eexists ex_c, ex_k, _, r0, m, (rms_of UB (V 0 1 0) m), UB. split; [exact Ph|]. split; [reflexivity|]. split.
  { unfold calc_point. cbv zeta. rewrite H. cbn [f_sample s_cell s_u s_v default_sample]. rewrite EU. reflexivity. }
  split; [exact EU|]. destruct (C68_swapped 6 7 8 1 m UB ltac:(lra) ltac:(lra) ltac:(lra) ltac:(lra) EU) as (E0 & E1). rewrite E0, E1.
  assert (Pos : forall i, (i = 0 \/ i = 1)%nat -> 0 < qf 4 m (along UB (V 0 1 0) (unit i))).
  { assert (Eq : mv UB (V 0 1 0) = V 0 (2 * PI / 7) 0) by (unfold UB; apply v3_eq; simpl; field).
    intros i Hi. apply Pd. exists (1 - i)%nat. split; [lia|]. unfold along. cbv zeta. rewrite Eq. cbn [vx vy vz]. replace (0 * 0 + 2 * PI / 7 * (2 * PI / 7)) with ((2 * PI / 7) ^ 2) by field. rewrite sqrt_pow2 by lra.
    destruct Hi as [->| ->]; unfold UB, mv, unit; cbn [Nat.eqb Nat.sub nth vx vy vz m11 m12 m13 m21 m22 m23 m31 m32 m33].
    - replace ((0 * _ - _) / _) with (- (2 * PI / 6)) by (field; lra). lra.
    - replace ((0 * _ + _) / _) with (2 * PI / 7) by (field; lra). lra. }
  assert (X0 := Pos 0%nat ltac:(auto)). assert (X1 := Pos 1%nat ltac:(auto)). split; lra.
Qed.
Print Assumptions C68_refuted.

(** More properties of the nuclear structure factor (C47): lattice centring, thermal displacements, undefined values. *)
From Coq Require Import String Ascii List ZArith QArith Reals Qreals Lra Lia Permutation Bool.
From Verif Require Import Base AtomData SymData SymModel SymProof SymGroup SymMetricProps LinAlg LatticeModel LatticeProof LatticeProps StructModel StructProps.
Import ListNotations.
Local Open Scope R_scope.

(** C47.  Reflections forbidden by the lattice centring have F = 0, whatever the atoms. *)
Definition forbidden (letter : ascii) (h k l : Z) : Prop :=
  (letter = "I"%char /\ ((h + k + l) mod 2 <> 0)%Z) \/ (letter = "C"%char /\ ((h + k) mod 2 <> 0)%Z) \/ (letter = "A"%char /\ ((k + l) mod 2 <> 0)%Z) \/
  (letter = "F"%char /\ ((h + k) mod 2 <> 0 \/ (k + l) mod 2 <> 0 \/ (h + l) mod 2 <> 0)%Z) \/ (letter = "R"%char /\ ((- h + k + l) mod 3 <> 0)%Z).
Lemma centred_absent c m s g h k l F x y z n a b d : make_material c = Ok m -> c_group c = Some s -> space_group s = Ok g ->
  Forall rigid_item (c_composition c) -> calc_nuc_str_fac m (V (IZR h) (IZR k) (IZR l)) = Some F ->
  In (x, y, z) (centring (first_letter (g_symbol g))) -> (0 < n)%Z -> Q2R x = IZR a / IZR n -> Q2R y = IZR b / IZR n -> Q2R z = IZR d / IZR n ->
  ((h * a + k * b + l * d) mod n <> 0)%Z -> F = (0, 0).
Proof.
  intros Hm Hs Hg R H I Pn Ex Ey Ez Nd. destruct (group_is_group s g Hg) as [_ (e & Ie & He)]. destruct (C54_centring e g Ie He) as [_ C].
  destruct (proj2 (C x y z)) as (o & Io & Ro & T1 & T2 & T3); [exists x, y, z; repeat split; auto; reflexivity|].
  apply Qeq_eqR in T1, T2, T3. change (SymMetricProps.rot o) with (StructModel.rot o) in Ro.
  apply (C47_absences c m s g o (V (IZR h) (IZR k) (IZR l)) F Hm Hs Hg Io R); [exists h, k, l; reflexivity| | |exact H].
  - rewrite Ro. unfold mv, mT, mI. apply v3_eq; cbn; ring.
  - intros q E. apply Nd. unfold tr, dot in E. cbn [vx vy vz] in E. rewrite T1, T2, T3, Ex, Ey, Ez in E. assert (P : IZR n <> 0) by (apply not_0_IZR; lia).
    assert (E' : (h * a + k * b + l * d = q * n)%Z).
    { apply eq_IZR. rewrite !plus_IZR, !mult_IZR. apply (Rmult_eq_reg_r (/ IZR n)); [|now apply Rinv_neq_0_compat]. rewrite (Rmult_assoc (IZR q)), Rinv_r, Rmult_1_r by auto. rewrite <- E. field. auto. }
    rewrite E'. apply Z.mod_mul. lia.
Qed.
Theorem C47_centring : forall c m s g h k l F, make_material c = Ok m -> c_group c = Some s -> space_group s = Ok g ->
  Forall rigid_item (c_composition c) -> calc_nuc_str_fac m (V (IZR h) (IZR k) (IZR l)) = Some F ->
  forbidden (first_letter (g_symbol g)) h k l -> F = (0, 0).
Proof.
  intros c m s g h k l F Hm Hs Hg R H Fb.
  assert (X : forall x y z n a b d, In (x, y, z) (centring (first_letter (g_symbol g))) -> (0 < n)%Z -> Q2R x = IZR a / IZR n -> Q2R y = IZR b / IZR n ->
     Q2R z = IZR d / IZR n -> ((h * a + k * b + l * d) mod n <> 0)%Z -> F = (0, 0)) by (intros; eapply centred_absent; eauto).
  destruct Fb as [[L N]|[[L N]|[[L N]|[[L N]|[L N]]]]]; rewrite L in X.
  - apply (X (1 # 2) (1 # 2) (1 # 2) 2%Z 1%Z 1%Z 1%Z)%Q; try solve [cbn [centring In]; auto]; try lia; try solve [unfold Q2R; cbn [Qnum Qden]; lra]. rewrite !Z.mul_1_r. auto.
  - apply (X (1 # 2) (1 # 2) 0 2%Z 1%Z 1%Z 0%Z)%Q; try solve [cbn [centring In]; auto]; try lia; try solve [unfold Q2R; cbn [Qnum Qden]; lra]. rewrite !Z.mul_1_r, Z.mul_0_r, Z.add_0_r. auto.
  - apply (X 0 (1 # 2) (1 # 2) 2%Z 0%Z 1%Z 1%Z)%Q; try solve [cbn [centring In]; auto]; try lia; try solve [unfold Q2R; cbn [Qnum Qden]; lra]. rewrite !Z.mul_1_r, Z.mul_0_r. auto.
  - destruct N as [N|[N|N]].
    + apply (X (1 # 2) (1 # 2) 0 2%Z 1%Z 1%Z 0%Z)%Q; try solve [cbn [centring In]; auto]; try lia; try solve [unfold Q2R; cbn [Qnum Qden]; lra]. rewrite !Z.mul_1_r, Z.mul_0_r, Z.add_0_r. auto.
    + apply (X 0 (1 # 2) (1 # 2) 2%Z 0%Z 1%Z 1%Z)%Q; try solve [cbn [centring In]; auto]; try lia; try solve [unfold Q2R; cbn [Qnum Qden]; lra]. rewrite !Z.mul_1_r, Z.mul_0_r. auto.
    + apply (X (1 # 2) 0 (1 # 2) 2%Z 1%Z 0%Z 1%Z)%Q; try solve [cbn [centring In]; auto]; try lia; try solve [unfold Q2R; cbn [Qnum Qden]; lra]. rewrite !Z.mul_1_r, Z.mul_0_r, Z.add_0_r. auto.
  - apply (X (2 # 3) (1 # 3) (1 # 3) 3%Z 2%Z 1%Z 1%Z)%Q; try solve [cbn [centring In]; auto]; try lia; try solve [unfold Q2R; cbn [Qnum Qden]; lra].
    replace (h * 2 + k * 1 + l * 1)%Z with ((- h + k + l) + h * 3)%Z by lia. now rewrite Z.mod_add by lia.
Qed.
Print Assumptions C47_centring.

(** ** Where the structure factor is defined *)
Lemma form_zero l : cell l -> forall v, form (Gstar l) v v = 0 -> v = V 0 0 0.
Proof.
  intros C v E. destruct (cell_facts l C) as (ca & cb & cg & sa & sb & sg & r & Fc). destruct v as [x y z].
  destruct (Req_dec x 0) as [->|N]; [destruct (Req_dec y 0) as [->|N]; [destruct (Req_dec z 0) as [->|N]; [reflexivity|]|]|];
  exfalso; match type of E with form _ ?w _ = _ => assert (P : 0 < form (Gstar l) w w) by (apply (form_pos l _ _ _ _ _ _ _ Fc); intros J; injection J; intros; lra) end; lra.
Qed.
Lemma form_origin m : form m (V 0 0 0) (V 0 0 0) = 0.
Proof. unfold form, dot, mv. cbn [vx vy vz]. ring. Qed.
Lemma visible_iff l w a : cell l -> 0 < w -> visible l w a <-> a_pos a = V 0 0 0 \/ w / 2 <= get_d_spacing l (a_pos a).
Proof.
  intros C W. unfold visible, debye_waller. destruct (Req_EM_T w 0); [lra|]. unfold two_theta_np. destruct (Req_EM_T (form (Gstar l) (a_pos a) (a_pos a)) 0) as [Z|N].
  - apply form_zero in Z; auto. split; [auto|discriminate].
  - assert (Nz : nz (a_pos a)) by (intros J; apply N; rewrite J; apply form_origin).
    assert (B := C22_bragg l (a_pos a) w C Nz W). destruct (get_two_theta l (a_pos a) w); [split; [intros _; right; lra|discriminate]|].
    split; [congruence|]. intros [J|J]; [contradiction|lra].
Qed.
(** C47.  The value is a number exactly when each atom's position vector, read as hkl, satisfies Bragg's law at the
    material's wavelength; otherwise it is nan, with or without displacements. *)
Theorem C47_defined : forall m h, cell (m_lattice m) -> 0 < m_wavelength m ->
  (calc_nuc_str_fac m h <> None <-> forall a, In a (m_atoms m) -> a_pos a = V 0 0 0 \/ m_wavelength m / 2 <= get_d_spacing (m_lattice m) (a_pos a)).
Proof.
  intros m h C W. unfold calc_nuc_str_fac. split.
  - intros N a I. destruct (nuc_sum _ _ _ _) as [F|] eqn:E; [|congruence]. apply nuc_sum_iff in E. destruct E as [V _]. rewrite Forall_forall in V. apply visible_iff; auto.
  - intros A. assert (V : Forall (visible (m_lattice m) (m_wavelength m)) (m_atoms m)) by (apply Forall_forall; intros a I; apply visible_iff; auto).
    rewrite (proj2 (nuc_sum_iff _ _ h _ _) (conj V eq_refl)). discriminate.
Qed.
Print Assumptions C47_defined.

(** C47.  The displacement factor of an atom is exp(-U q^2 / 2) exp(-x.U x) with q and x taken from its position, not from the reflection. *)
Theorem C47_displacement : forall l w a d, cell l -> 0 < w -> debye_waller l w a = Some d ->
  d = exp (- (a_uiso a * form (Gstar l) (a_pos a) (a_pos a) / 2)) * exp (- form (a_uaniso a) (a_pos a) (a_pos a)).
Proof.
  intros l w a d C W. unfold debye_waller. destruct (Req_EM_T w 0); [lra|]. unfold two_theta_np. destruct (Req_EM_T (form (Gstar l) (a_pos a) (a_pos a)) 0) as [Z|N].
  - intros H. injection H as <-. rewrite Z. apply f_equal2; [|reflexivity]. apply f_equal. replace (rad (0 / 2)) with 0 by (unfold rad; field). rewrite sin_0. field. lra.
  - assert (Nz : nz (a_pos a)) by (intros J; apply N; rewrite J; apply form_origin).
    assert (B := C22_bragg l (a_pos a) w C Nz W). destruct (C22_q_times_d l (a_pos a) C Nz) as (D & _ & Qd & Q2). destruct (get_two_theta l (a_pos a) w) as [t|]; [|discriminate].
    destruct B as (_ & _ & B). intros H. injection H as <-. apply f_equal2; [|reflexivity]. apply f_equal. rewrite <- Q2.
    replace (rad (t / 2)) with (rad t / 2) by (unfold rad; field). set (s := sin (rad t / 2)) in *. set (dd := get_d_spacing l (a_pos a)) in *.
    assert (P := PI_RGT_0). unfold get_q. fold dd. assert (Ns : s <> 0) by (intros J; rewrite J in B; lra). rewrite B. field. split; auto. lra.
Qed.
Print Assumptions C47_displacement.

(** C47.  So a single atom scatters with the same |F| at every hkl, however large its displacements. *)
Theorem C47_one_atom : forall l w a h h' F, nuc_sum l w h [a] = Some F -> exists F', nuc_sum l w h' [a] = Some F' /\ cabs F' = cabs F.
Proof.
  intros l w a h h' F H. apply nuc_sum_iff in H. destruct H as [V ->]. eexists. split; [apply nuc_sum_iff; split; [exact V|reflexivity]|]. cbn [map csum].
  assert (E : forall k, cabs (cadd (term l w k a) c0) = cabs (cscal (dwt l w a) (cscal (a_occ a) (a_b a)))).
  { intros k. unfold term. rewrite <- (cabs_cis (2 * PI * dot k (a_pos a)) (cscal (dwt l w a) (cscal (a_occ a) (a_b a)))). f_equal. cxring. }
  now rewrite !E.
Qed.
Print Assumptions C47_one_atom.

(** ** A cubic cell, for the concrete cases *)
Lemma cube_cell a : 0 < a -> cell (mkL a a a 90 90 90).
Proof.
  intros A. assert (C : cos (rad 90) = 0) by (unfold rad; replace (90 * PI / 180) with (PI / 2) by field; apply cos_PI2).
  unfold cell; cbn [la lb lc alpha beta gamma]. rewrite C. repeat split; try lra.
Qed.
Lemma cube_form a v : 0 < a -> form (Gstar (mkL a a a 90 90 90)) v v = 4 * PI ^ 2 / a ^ 2 * dot v v.
Proof.
  intros A. assert (C : cos (rad 90) = 0) by (unfold rad; replace (90 * PI / 180) with (PI / 2) by field; apply cos_PI2).
  assert (E : Gstar (mkL a a a 90 90 90) = mscal (4 * PI ^ 2 / a ^ 2) mI).
  { unfold Gstar. assert (J : G (mkL a a a 90 90 90) = mscal (a ^ 2) mI) by (unfold G, mscal, mI; cbn [la lb lc alpha beta gamma]; rewrite C; apply m3_eq; cbn; ring).
    rewrite J. rewrite <- (inv_unique (mscal (a ^ 2) mI) (mscal (/ a ^ 2) mI)).
    - unfold mscal, mI. apply m3_eq; cbn; field; lra.
    - rewrite det_scal, det_I. assert (0 < (a ^ 2) ^ 3) by (do 2 apply pow_lt; lra). lra.
    - unfold mmul, mscal, mI. apply m3_eq; cbn; field; lra. }
  rewrite E. unfold form, dot, mv, mscal, mI. cbn. ring.
Qed.
Lemma cube_d a v n : 0 < a -> 0 < n -> dot v v = n ^ 2 -> get_d_spacing (mkL a a a 90 90 90) v = a / n.
Proof.
  intros A N E. rewrite d_form, cube_form, E by auto. assert (P := PI_RGT_0).
  replace (4 * PI ^ 2 / a ^ 2 * n ^ 2 / (4 * PI ^ 2)) with ((n / a) ^ 2) by (field; lra). rewrite <- Rsqr_pow2, sqrt_Rsqr by (apply Rlt_le, Rdiv_lt_0_compat; auto). field. lra.
Qed.

(** C47.  Moving an atom by a lattice vector does change F once it has a displacement; and can make F undefined even without one. *)
Theorem C47_translation_displaced_refuted : exists l w a s h F F', cell l /\ 0 < w /\ 0 < a_uiso a /\ integral s /\ integral h /\
  nuc_sum l w h [a] = Some F /\ nuc_sum l w h [shift s a] = Some F' /\ cabs F' <> cabs F.
Proof.
  set (l := mkL 4 4 4 90 90 90). set (a := mkAtom "Al" (V 0 0 0) 1 (1, 0) 1 zero3 None None None).
  assert (C : cell l) by (apply cube_cell; lra).
  assert (V1 : visible l 2 a) by (apply visible_iff; [auto|lra|now left]).
  assert (V2 : visible l 2 (shift (V 1 0 0) a)).
  { apply visible_iff; [auto|lra|]. right. cbn [shift a_pos a]. unfold l. rewrite (cube_d 4 _ 1) by (try lra; unfold dot, vadd; cbn; ring). lra. }
  exists l, 2, a, (V 1 0 0), (V 1 0 0), (csum (map (term l 2 (V 1 0 0)) [a])), (csum (map (term l 2 (V 1 0 0)) [shift (V 1 0 0) a])).
  do 3 (split; [auto; cbn; lra|]). split; [now exists 1%Z, 0%Z, 0%Z|]. split; [now exists 1%Z, 0%Z, 0%Z|].
  split; [apply nuc_sum_iff; auto|]. split; [apply nuc_sum_iff; auto|].
  assert (D1 : dwt l 2 a = 1).
  { unfold dwt. destruct (debye_waller l 2 a) as [d|] eqn:E; [|contradiction]. apply C47_displacement in E; [|auto|lra]. rewrite E. cbn [a a_pos a_uiso a_uaniso]. rewrite !form_origin.
    replace (- (1 * 0 / 2)) with 0 by field. rewrite Ropp_0, exp_0. ring. }
  assert (D2 : dwt l 2 (shift (V 1 0 0) a) = exp (- (PI ^ 2 / 8))).
  { unfold dwt. destruct (debye_waller l 2 (shift (V 1 0 0) a)) as [d|] eqn:E; [|contradiction]. apply C47_displacement in E; [|auto|lra]. rewrite E.
    cbn [shift a a_pos a_uiso a_uaniso]. unfold l. rewrite cube_form by lra. replace (form zero3 (vadd (V 0 0 0) (V 1 0 0)) (vadd (V 0 0 0) (V 1 0 0))) with 0 by (unfold form, dot, mv, zero3; cbn; ring).
    rewrite Ropp_0, exp_0, Rmult_1_r. f_equal. unfold dot, vadd; cbn [vx vy vz]. field. }
  assert (M : forall k b, cabs (csum (map (term l 2 k) [b])) = cabs (cscal (dwt l 2 b) (cscal (a_occ b) (a_b b)))).
  { intros k b. cbn [map csum]. unfold term. rewrite <- (cabs_cis (2 * PI * dot k (a_pos b)) (cscal (dwt l 2 b) (cscal (a_occ b) (a_b b)))). f_equal. cxring. }
  rewrite !M, D1, D2. cbn [a shift a_occ a_b]. unfold cabs, cscal. cbn [fst snd].
  replace ((1 * (1 * 1)) ^ 2 + (1 * (1 * 0)) ^ 2) with 1 by ring. rewrite sqrt_1. set (e := exp (- (PI ^ 2 / 8))).
  replace ((e * (1 * 1)) ^ 2 + (e * (1 * 0)) ^ 2) with (Rsqr e) by (unfold Rsqr; ring). assert (Pe : 0 < e) by apply exp_pos. rewrite sqrt_Rsqr by lra.
  assert (e < exp 0). { apply exp_increasing. assert (P := PI_RGT_0). assert (0 < PI ^ 2) by (apply pow_lt; auto). lra. } rewrite exp_0 in H. lra.
Qed.
Print Assumptions C47_translation_displaced_refuted.
Theorem C47_translation_nan_refuted : exists l w a s h F, cell l /\ 0 < w /\ rigid a /\ integral s /\ integral h /\
  nuc_sum l w h [a] = Some F /\ nuc_sum l w h [shift s a] = None.
Proof.
  set (l := mkL 4 4 4 90 90 90). set (a := mkAtom "Al" (V 0 0 0) 1 (1, 0) 0 zero3 None None None).
  assert (C : cell l) by (apply cube_cell; lra). assert (V1 : visible l 2 a) by (apply visible_iff; [auto|lra|now left]).
  exists l, 2, a, (V 5 0 0), (V 1 0 0), (csum (map (term l 2 (V 1 0 0)) [a])). do 2 (split; [auto; lra|]). split; [split; reflexivity|].
  split; [now exists 5%Z, 0%Z, 0%Z|]. split; [now exists 1%Z, 0%Z, 0%Z|]. split; [apply nuc_sum_iff; auto|].
  destruct (nuc_sum _ _ _ _) as [F|] eqn:E; auto. apply nuc_sum_iff in E. destruct E as [V _]. inversion V as [|? ? Vs]; subst. apply visible_iff in Vs; [|auto|lra].
  cbn [shift a_pos a] in Vs. destruct Vs as [J|J]; [injection J; intros; lra|]. unfold l in J. rewrite (cube_d 4 _ 5) in J by (try lra; unfold dot, vadd; cbn; ring). lra.
Qed.
Print Assumptions C47_translation_nan_refuted.

(** C47.  Friedel's law needs real scattering lengths: with boron, whose tabulated length is complex, it fails. *)
Theorem C47_friedel_complex_refuted : exists l w atoms h F F', cell l /\ 0 < w /\ Forall rigid atoms /\ integral h /\
  Forall (fun a => exists p, make_atom (a_ion a) p 1 1 false 0 zero3 = Ok a) atoms /\
  nuc_sum l w h atoms = Some F /\ nuc_sum l w (opp h) atoms = Some F' /\ cabs F' <> cabs F.
Proof.
  set (l := mkL 4 4 4 90 90 90).
  destruct (make_atom "B" (V 0 0 0) 1 1 false 0 zero3) as [a|] eqn:A; [|discriminate A].
  destruct (make_atom "Al" (V (1 / 4) 0 0) 1 1 false 0 zero3) as [b|] eqn:B; [|discriminate B].
  injection A as A. injection B as B.
  assert (C : cell l) by (apply cube_cell; lra).
  assert (V1 : visible l 2 a) by (apply visible_iff; [auto|lra|rewrite <- A; now left]).
  assert (V2 : visible l 2 b).
  { apply visible_iff; [auto|lra|]. right. rewrite <- B. cbn [a_pos]. unfold l. rewrite (cube_d 4 _ (1 / 4)) by (try lra; unfold dot; cbn [vx vy vz]; field). lra. }
  exists l, 2, [a; b], (V 1 0 0), (csum (map (term l 2 (V 1 0 0)) [a; b])), (csum (map (term l 2 (opp (V 1 0 0))) [a; b])).
  do 2 (split; [auto; lra|]). assert (Ra : rigid a) by (rewrite <- A; split; reflexivity). assert (Rb : rigid b) by (rewrite <- B; split; reflexivity).
  split; [auto|]. split; [now exists 1%Z, 0%Z, 0%Z|].
  split; [constructor; [exists (V 0 0 0); rewrite <- A; reflexivity|constructor; [exists (V (1 / 4) 0 0); rewrite <- B; reflexivity|constructor]]|].
  split; [apply nuc_sum_iff; auto|]. split; [apply nuc_sum_iff; auto|].
  cbn [map csum]. unfold term. rewrite (dwt_rigid l 2 a), (dwt_rigid l 2 b) by auto. rewrite <- A, <- B. cbn [a_pos a_occ a_b].
  unfold opp. replace (2 * PI * dot (V 1 0 0) (V 0 0 0)) with 0 by (unfold dot; cbn [vx vy vz]; ring).
  replace (2 * PI * dot (V 1 0 0) (V (1 / 4) 0 0)) with (PI / 2) by (unfold dot; cbn [vx vy vz]; field).
  replace (2 * PI * dot (vscal (-1) (V 1 0 0)) (V 0 0 0)) with 0 by (unfold dot, vscal; cbn [vx vy vz]; ring).
  replace (2 * PI * dot (vscal (-1) (V 1 0 0)) (V (1 / 4) 0 0)) with (- (PI / 2)) by (unfold dot, vscal; cbn [vx vy vz]; field).
  unfold cis. rewrite cos_neg, sin_neg, cos_0, sin_0, cos_PI2, sin_PI2. intros E. unfold cabs in E. apply sqrt_inj in E; [| |];
  unfold cadd, cscal, cmul, c0, Q2R in *; cbn [fst snd Qnum Qden] in *; nra.
Qed.
Print Assumptions C47_friedel_complex_refuted.

(** C47.  With massNorm the occupancy enters squared: once in the stored scattering length, once in the sum. *)
Theorem C47_mass_norm : forall ion p occ mcell u ua a, make_atom ion p occ mcell true u ua = Ok a ->
  exists b m, mass_of ion = Some m /\ (forall a', make_atom ion p occ mcell false u ua = Ok a' -> a_b a' = cscal (/ 10) b) /\
  cscal (a_occ a) (a_b a) = cscal (occ ^ 2 * mcell / sqrt (Q2R m)) b.
Proof.
  intros ion p occ mcell u ua a H. unfold make_atom in *. destruct (scatterer_of ion) as [s|]; [|discriminate].
  destruct (s_b s) as [|b|re im]; [destruct (mass_of ion); discriminate| |];
  (cbn [bind] in *; destruct (mass_of ion) as [m|]; [|discriminate]; cbn [bind] in *; injection H as <-; eexists; exists m; split; [reflexivity|];
   split; [intros a' H'; injection H' as <-; reflexivity|]; cbn [a_occ a_b]; apply cx_eq; unfold cscal; cbn [fst snd]; unfold Rdiv; ring).
Qed.
Print Assumptions C47_mass_norm.
Example C47_mass_norm_ex : exists a, make_atom "Al" (V 0 0 0) (1 / 2) 27 true 0 zero3 = Ok a.
Proof. eexists. vm_compute. reflexivity. Qed.

(** Properties of the nuclear structure factor (C47). *)
From Coq Require Import String List ZArith QArith Reals Qreals Lra Lia Permutation Bool.
From Verif Require Import Base AtomData SymData SymModel SymProof SymGroup LinAlg LatticeModel LatticeProof LatticeProps StructModel.
Import ListNotations.
Local Open Scope R_scope.

(** ** Complex numbers *)
Definition cconj (a : cx) : cx := (fst a, - snd a).
Definition cabs (a : cx) : R := sqrt (fst a ^ 2 + snd a ^ 2).
Lemma cx_eq (a b : cx) : fst a = fst b -> snd a = snd b -> a = b.
Proof. destruct a, b; cbn; congruence. Qed.
Ltac cxring := apply cx_eq; unfold cadd, cmul, cscal, cconj, c0; cbn [fst snd]; ring.
Lemma cis_add a b : cis (a + b) = cmul (cis a) (cis b).
Proof. unfold cis. rewrite cos_plus, sin_plus. apply cx_eq; unfold cmul; cbn [fst snd]; ring. Qed.
Lemma cis_opp a : cis (- a) = cconj (cis a).
Proof. unfold cis, cconj. cbn. now rewrite cos_neg, sin_neg. Qed.
Lemma cis_int n : cis (2 * PI * IZR n) = (1, 0).
Proof.
  replace (2 * PI * IZR n) with (2 * (IZR n * PI)) by ring. unfold cis. rewrite cos_2a_sin, sin_2a.
  assert (S : sin (IZR n * PI) = 0) by (apply sin_eq_0_1; now exists n). rewrite S. apply cx_eq; cbn; ring.
Qed.
Lemma cabs_cis t a : cabs (cmul (cis t) a) = cabs a.
Proof.
  unfold cabs, cmul, cis. cbn [fst snd]. f_equal. assert (E := sin2_cos2 t). unfold Rsqr in E.
  replace ((cos t * fst a - sin t * snd a) ^ 2 + (cos t * snd a + sin t * fst a) ^ 2) with ((sin t * sin t + cos t * cos t) * (fst a ^ 2 + snd a ^ 2)) by ring.
  rewrite E. ring.
Qed.
Lemma cmul_assoc a b c : cmul a (cmul b c) = cmul (cmul a b) c.
Proof. cxring. Qed.
Lemma cmul_comm a b : cmul a b = cmul b a.
Proof. cxring. Qed.

(** ** The sum *)
Fixpoint csum (l : list cx) : cx := match l with [] => c0 | x :: r => cadd x (csum r) end.
Definition dwt (l : lattice) (w : R) (a : atom) : R := match debye_waller l w a with Some d => d | None => 0 end.
Definition term (l : lattice) (w : R) (h : v3) (a : atom) : cx := cscal (dwt l w a) (cmul (cscal (a_occ a) (a_b a)) (cis (2 * PI * dot h (a_pos a)))).
Definition visible (l : lattice) (w : R) (a : atom) : Prop := debye_waller l w a <> None.
Lemma nuc_sum_iff l w h atoms F : nuc_sum l w h atoms = Some F <-> Forall (visible l w) atoms /\ F = csum (map (term l w h) atoms).
Proof.
  revert F. induction atoms as [|a r IH]; intros F; cbn [nuc_sum map csum].
  - split; [intros H; injection H as <-; auto|intros [_ ->]; auto].
  - unfold nuc_term. unfold term at 1, dwt. destruct (debye_waller l w a) as [d|] eqn:D.
    + destruct (nuc_sum l w h r) as [y|].
      * destruct (proj1 (IH y) eq_refl) as [V ->]. split.
        -- intros H. injection H as <-. split; [constructor; [unfold visible; congruence|auto]|reflexivity].
        -- intros [_ ->]. reflexivity.
      * split; [discriminate|]. intros [V ->]. inversion V; subst. assert (X := proj2 (IH _) (conj H2 eq_refl)). discriminate.
    + split; [discriminate|]. intros [V _]. inversion V; subst. congruence.
Qed.
Lemma csum_app a b : csum (a ++ b) = cadd (csum a) (csum b).
Proof. induction a as [|x a IH]; cbn [app csum]; [cxring|]. rewrite IH. cxring. Qed.
Lemma csum_mul z l : csum (map (cmul z) l) = cmul z (csum l).
Proof. induction l as [|x l IH]; cbn [map csum]; [cxring|]. rewrite IH. cxring. Qed.
Lemma csum_perm a b : Permutation a b -> csum a = csum b.
Proof. induction 1; cbn [csum]; try congruence. cxring. Qed.
Lemma csum_conj l : csum (map cconj l) = cconj (csum l).
Proof. induction l as [|x l IH]; cbn [map csum]; [cxring|]. rewrite IH. cxring. Qed.

(** No thermal displacement. *)
Definition rigid (a : atom) : Prop := a_uiso a = 0 /\ a_uaniso a = zero3.
Lemma dwt_rigid l w a : rigid a -> visible l w a -> dwt l w a = 1.
Proof.
  intros [U A] V. unfold visible, dwt, debye_waller in *. destruct (Req_EM_T w 0); [congruence|]. destruct (two_theta_np _ _ _); [|congruence].
  rewrite U, A. replace (dot (a_pos a) (mv zero3 (a_pos a))) with 0 by (unfold dot, mv, zero3; cbn; ring).
  replace (- 8 * PI ^ 2 * 0 * sin (rad (r / 2)) ^ 2 / w ^ 2) with 0 by (unfold Rdiv; ring). rewrite Ropp_0, exp_0. ring.
Qed.
Definition opp (v : v3) : v3 := vscal (-1) v.
Definition integral (v : v3) : Prop := exists h k l, v = V (IZR h) (IZR k) (IZR l).

(** C47.  Without displacements the structure factor is the sum of occupancy times scattering length times the phase
    exp(2 pi i (h x + k y + l z)) over the atoms, here written out in real and imaginary parts. *)
Definition rsum (l : list R) : R := fold_right Rplus 0 l.
Definition argument (h : v3) (a : atom) : R := 2 * PI * (vx h * vx (a_pos a) + vy h * vy (a_pos a) + vz h * vz (a_pos a)).
Theorem C47_sum : forall m h F, Forall rigid (m_atoms m) -> calc_nuc_str_fac m h = Some F ->
  fst F = rsum (map (fun a => a_occ a * (fst (a_b a) * cos (argument h a) - snd (a_b a) * sin (argument h a))) (m_atoms m)) /\
  snd F = rsum (map (fun a => a_occ a * (fst (a_b a) * sin (argument h a) + snd (a_b a) * cos (argument h a))) (m_atoms m)).
Proof.
  intros m h F G H. unfold calc_nuc_str_fac in H. apply nuc_sum_iff in H. destruct H as [V ->].
  induction (m_atoms m) as [|a r IH]; [split; reflexivity|]. inversion G; inversion V; subst. destruct IH as [I1 I2]; auto.
  cbn [map csum rsum fold_right]. unfold term at 1 3. rewrite (dwt_rigid (m_lattice m) (m_wavelength m) a) by auto.
  replace (2 * PI * dot h (a_pos a)) with (argument h a) by reflexivity. unfold cadd. cbn [fst snd]. unfold rsum in I1, I2. rewrite I1, I2.
  unfold cscal, cmul, cis. cbn [fst snd]. split; f_equal; ring.
Qed.
Print Assumptions C47_sum.

(** C47.  With real scattering lengths F(-h) is the complex conjugate of F(h), whatever the displacements. *)
Theorem C47_friedel : forall m h F, Forall (fun a => snd (a_b a) = 0) (m_atoms m) -> calc_nuc_str_fac m h = Some F ->
  calc_nuc_str_fac m (opp h) = Some (fst F, - snd F) /\ forall F', calc_nuc_str_fac m (opp h) = Some F' -> cabs F' = cabs F.
Proof.
  intros m h F B H. unfold calc_nuc_str_fac in *. apply nuc_sum_iff in H. destruct H as [V ->].
  assert (E : nuc_sum (m_lattice m) (m_wavelength m) (opp h) (m_atoms m) = Some (cconj (csum (map (term (m_lattice m) (m_wavelength m) h) (m_atoms m))))).
  { apply nuc_sum_iff. split; auto. rewrite <- csum_conj, map_map. f_equal. apply map_ext_in. intros a I. rewrite Forall_forall in B. specialize (B a I).
    unfold term. replace (2 * PI * dot (opp h) (a_pos a)) with (- (2 * PI * dot h (a_pos a))) by (unfold dot, opp, vscal; cbn; ring).
    rewrite cis_opp. destruct (a_b a) as [x y]. cbn in B. subst y. cxring. }
  split; [exact E|]. intros F' H. rewrite E in H. injection H as <-. unfold cabs, cconj; cbn [fst snd]. f_equal. ring.
Qed.
Print Assumptions C47_friedel.

(** C47.  Shifting all atoms of a rigid structure by one vector changes the phase only. *)
Definition shift (s : v3) (a : atom) : atom :=
  mkAtom (a_ion a) (vadd (a_pos a) s) (a_occ a) (a_b a) (a_uiso a) (a_uaniso a) (a_coh a) (a_inc a) (a_abs a).
Theorem C47_shift : forall l w atoms h s F F', Forall rigid atoms ->
  nuc_sum l w h atoms = Some F -> nuc_sum l w h (map (shift s) atoms) = Some F' ->
  F' = cmul (cis (2 * PI * dot h s)) F /\ cabs F' = cabs F.
Proof.
  intros l w atoms h s F F' R H H'. apply nuc_sum_iff in H. destruct H as [V ->]. apply nuc_sum_iff in H'. destruct H' as [V' ->].
  assert (E : csum (map (term l w h) (map (shift s) atoms)) = cmul (cis (2 * PI * dot h s)) (csum (map (term l w h) atoms))).
  { rewrite <- csum_mul, !map_map. f_equal. apply map_ext_in. intros a I. rewrite Forall_forall in R, V, V'.
    assert (Va := V a I). assert (Ra := R a I). assert (Vs := V' (shift s a) (in_map _ _ _ I)).
    unfold term. rewrite (dwt_rigid l w a) by auto. rewrite (dwt_rigid l w (shift s a)) by auto. cbn [shift a_pos a_occ a_b].
    replace (2 * PI * dot h (vadd (a_pos a) s)) with (2 * PI * dot h s + 2 * PI * dot h (a_pos a)) by (unfold dot, vadd; cbn; ring).
    rewrite cis_add. cxring. }
  split; [exact E|]. rewrite E. apply cabs_cis.
Qed.
Print Assumptions C47_shift.

(** C47.  Moving any atoms of a rigid structure by lattice vectors does not change F at integral hkl. *)
Definition moved (a b : atom) : Prop := exists s, integral s /\ b = shift s a.
Lemma dot_int h s : integral h -> integral s -> exists n, dot h s = IZR n.
Proof.
  intros (a & b & c & ->) (x & y & z & ->). exists (a * x + b * y + c * z)%Z. unfold dot; cbn. now rewrite !plus_IZR, !mult_IZR.
Qed.
Theorem C47_lattice_translation : forall l w atoms atoms' h F F', Forall rigid atoms -> Forall2 moved atoms atoms' -> integral h ->
  nuc_sum l w h atoms = Some F -> nuc_sum l w h atoms' = Some F' -> F' = F.
Proof.
  intros l w atoms atoms' h F F' R Mv I H H'. apply nuc_sum_iff in H. destruct H as [V ->]. apply nuc_sum_iff in H'. destruct H' as [V' ->].
  induction Mv as [|a b r r' (s & Is & ->) _ IH]; auto. inversion R; inversion V; inversion V'; subst. cbn [map csum]. rewrite IH by auto. f_equal.
  unfold term. rewrite (dwt_rigid l w a), (dwt_rigid l w (shift s a)) by auto. cbn [shift a_pos a_occ a_b].
  replace (2 * PI * dot h (vadd (a_pos a) s)) with (2 * PI * dot h s + 2 * PI * dot h (a_pos a)) by (unfold dot, vadd; cbn; ring).
  rewrite cis_add. destruct (dot_int h s I Is) as (n & ->). rewrite cis_int. cxring.
Qed.
Print Assumptions C47_lattice_translation.

(** C47.  A structure made of atoms and their inverses has a real F, with or without displacements. *)
Definition inverse (a : atom) : atom :=
  mkAtom (a_ion a) (opp (a_pos a)) (a_occ a) (a_b a) (a_uiso a) (a_uaniso a) (a_coh a) (a_inc a) (a_abs a).
Lemma form_opp m v : form m (opp v) (opp v) = form m v v.
Proof. unfold opp. rewrite form_scal2. ring. Qed.
Lemma dw_inverse l w a : debye_waller l w (inverse a) = debye_waller l w a.
Proof.
  unfold debye_waller, two_theta_np, get_two_theta, inverse. cbn [a_pos a_uiso a_uaniso]. rewrite form_opp.
  change (dot (opp (a_pos a)) (mv (a_uaniso a) (opp (a_pos a)))) with (form (a_uaniso a) (opp (a_pos a)) (opp (a_pos a))). rewrite form_opp.
  rewrite !d_form, form_opp. reflexivity.
Qed.
Theorem C47_inversion : forall l w atoms h F, Forall (fun a => snd (a_b a) = 0) atoms ->
  nuc_sum l w h (atoms ++ map inverse atoms) = Some F -> snd F = 0.
Proof.
  intros l w atoms h F B H. apply nuc_sum_iff in H. destruct H as [_ ->]. rewrite map_app, csum_app, map_map.
  assert (E : csum (map (fun a => term l w h (inverse a)) atoms) = cconj (csum (map (term l w h) atoms))).
  { rewrite <- csum_conj, map_map. f_equal. apply map_ext_in. intros a I. rewrite Forall_forall in B. specialize (B a I).
    unfold term, dwt. rewrite dw_inverse. cbn [inverse a_pos a_occ a_b].
    replace (2 * PI * dot h (opp (a_pos a))) with (- (2 * PI * dot h (a_pos a))) by (unfold dot, opp, vscal; cbn; ring).
    rewrite cis_opp. destruct (a_b a) as [x y]. cbn in B. subst y. cxring. }
  rewrite E. unfold cadd, cconj. cbn [fst snd]. ring.
Qed.
Print Assumptions C47_inversion.
Example C47_ex : Forall (fun a => snd (a_b a) = 0) [mkAtom "Na" (V 0 0 0) 1 (1, 0) 0 zero3 None None None] /\
  Forall rigid [mkAtom "Na" (V 0 0 0) 1 (1, 0) 0 zero3 None None None] /\
  nuc_sum (mkL 4 4 4 90 90 90) 2 (V 1 0 0) [mkAtom "Na" (V 0 0 0) 1 (1, 0) 0 zero3 None None None] = Some (1, 0).
Proof.
  split; [repeat constructor|]. split; [repeat constructor|]. apply nuc_sum_iff.
  assert (Vs : visible (mkL 4 4 4 90 90 90) 2 (mkAtom "Na" (V 0 0 0) 1 (1, 0) 0 zero3 None None None)).
  { unfold visible, debye_waller. destruct (Req_EM_T 2 0); [lra|]. unfold two_theta_np. cbn [a_pos]. destruct (Req_EM_T _ 0) as [|N]; [discriminate|].
    exfalso. apply N. unfold form, dot, mv. cbn [vx vy vz]. ring. }
  split; [repeat constructor; exact Vs|]. cbn [map csum]. unfold term. rewrite dwt_rigid by (auto; split; reflexivity). cbn [a_occ a_b a_pos].
  replace (2 * PI * dot (V 1 0 0) (V 0 0 0)) with 0 by (unfold dot; cbn; ring). unfold cis. rewrite cos_0, sin_0. apply cx_eq; unfold cadd, cscal, cmul, c0; cbn [fst snd]; ring.
Qed.

(** ** Space groups *)
Lemma group_is_group s g : space_group s = Ok g -> is_group (g_ops g) /\ exists e, In e table /\ space_group (SInt (e_number e)) = Ok g.
Proof.
  unfold space_group. destruct (select None s) as [k|]; [|discriminate]. cbn [bind]. unfold load at 1. destruct k as [k|]; [|discriminate].
  destruct (by_key k) as [e|] eqn:K; [|discriminate]. intros H. apply by_key_inv in K. destruct K as [I <-].
  destruct (entry_group e I) as (gens & ops & L & G1 & O & Gr & _). rewrite G1 in H. cbn [bind] in H. rewrite O in H. cbn [bind] in H. injection H as <-.
  split; [exact Gr|]. exists e. split; auto. rewrite (select_some None (SInt (e_number e)) e) by (auto; reflexivity). exact L.
Qed.
Lemma star_perm ops o : is_group ops -> In o ops -> Permutation (map (star o) ops) ops.
Proof.
  intros [C N I M V] Io. destruct (V o Io) as (o' & Io' & E1 & E2). rewrite Forall_forall in C. apply NoDup_Permutation_bis.
  - apply NoDup_nth with (d := star o idop). intros i j Li Lj E. rewrite map_length in *. rewrite !map_nth in E.
    assert (X : forall k, (k < length ops)%nat -> star o' (star o (nth k ops idop)) = nth k ops idop).
    { intros k Lk. rewrite star_assoc, E2. apply star_id_l. apply C, nth_In; auto. }
    assert (Y : nth i ops idop = nth j ops idop) by (rewrite <- (X i), <- (X j), E by auto; reflexivity).
    apply (proj1 (NoDup_nth ops idop) N i j); auto.
  - now rewrite map_length.
  - intros x Ix. apply in_map_iff in Ix. destruct Ix as (y & <- & Iy). auto.
Qed.
Lemma qcong_R x y : qcong x y -> exists n, Q2R x = Q2R y + IZR n.
Proof.
  intros (n & E). exists n. apply Qeq_eqR in E. rewrite ?Q2R_plus, ?Q2R_minus in E. unfold inject_Z in E. unfold Q2R at 3 in E. cbn [Qnum Qden] in E.
  rewrite Rinv_1 in E. lra.
Qed.
(** Phases at integral hkl do not see lattice translations. *)
Definition phase (h : v3) (o : op) (p : v3) : cx := cis (2 * PI * dot h (apply_real o p)).
Lemma phase_eqv h a b p : integral h -> eqv a b -> phase h a p = phase h b p.
Proof.
  intros (x & y & z & ->) ((E1&E2&E3&E4&E5&E6&E7&E8&E9) & F1 & F2 & F3). apply qcong_R in F1, F2, F3.
  destruct F1 as (n1 & F1), F2 as (n2 & F2), F3 as (n3 & F3). unfold phase, apply_real, rot, tr. rewrite E1, E2, E3, E4, E5, E6, E7, E8, E9, F1, F2, F3.
  match goal with |- cis ?u = cis ?v => replace u with (2 * PI * IZR (x * n1 + y * n2 + z * n3) + v) end.
  - rewrite cis_add, cis_int. apply cx_eq; unfold cmul; cbn [fst snd]; ring.
  - unfold dot, vadd, mv. cbn [vx vy vz m11 m12 m13 m21 m22 m23 m31 m32 m33]. rewrite !plus_IZR, !mult_IZR. ring.
Qed.
Lemma apply_mul_R a b p : apply_real (mulop a b) p = apply_real a (apply_real b p).
Proof.
  unfold apply_real, rot, tr, mulop, vadd, mv, rowdot. cbn [SymModel.r11 SymModel.r12 SymModel.r13 SymModel.r21 SymModel.r22 SymModel.r23 SymModel.r31 SymModel.r32 SymModel.r33 SymModel.t1 SymModel.t2 SymModel.t3].
  apply v3_eq; cbn [vx vy vz m11 m12 m13 m21 m22 m23 m31 m32 m33]; rewrite !plus_IZR, !mult_IZR, !Q2R_plus, !Q2R_mult;
    assert (J : forall z, Q2R (inject_Z z) = IZR z) by (intros; unfold Q2R, inject_Z; cbn; field); rewrite !J; ring.
Qed.
Lemma orbit_sum ops o h p : is_group ops -> In o ops -> integral h ->
  csum (map (fun x => phase (mv (mT (rot o)) h) x p) ops) = cmul (cis (- (2 * PI * dot h (tr o)))) (csum (map (fun x => phase h x p) ops)).
Proof.
  intros Gr Io Ih. rewrite <- (csum_perm _ _ (Permutation_map (fun x => phase h x p) (star_perm ops o Gr Io))).
  rewrite <- csum_mul, !map_map. f_equal. apply map_ext. intros x.
  rewrite (phase_eqv h (star o x) (mulop o x) p Ih (reduce_eqv _)). unfold phase. rewrite apply_mul_R, <- cis_add. f_equal.
  unfold apply_real at 2. replace (dot h (vadd (mv (rot o) (apply_real x p)) (tr o))) with (dot h (mv (rot o) (apply_real x p)) + dot h (tr o)) by (unfold dot, vadd; cbn; ring).
  rewrite dot_mv. ring.
Qed.

(** Entries without displacements. *)
Definition rigid_item (i : item) : Prop := (i_uiso i = None \/ i_uiso i = Some 0) /\ (i_uaniso i = None \/ i_uaniso i = Some zero3).
Lemma map_res_In {A B} (f : A -> res B) l l' : map_res f l = Ok l' -> Forall2 (fun x y => f x = Ok y) l l'.
Proof.
  revert l'. induction l as [|x l IH]; intros l' H; cbn in H; [injection H as <-; constructor|].
  destruct (f x) eqn:E; [|discriminate]. destruct (map_res f l); [|discriminate]. injection H as <-. constructor; auto.
Qed.
Lemma make_atom_fields ion p occ mc mn u ua a : make_atom ion p occ mc mn u ua = Ok a ->
  a_pos a = p /\ a_occ a = occ /\ a_uiso a = u /\ a_uaniso a = ua /\ forall p', make_atom ion p' occ mc mn u ua =
   Ok (mkAtom ion p' occ (a_b a) u ua (a_coh a) (a_inc a) (a_abs a)).
Proof.
  unfold make_atom. destruct (scatterer_of ion) as [s|]; [|discriminate].
  destruct (match s_b s with NoLength => _ | _ => _ end) as [b|]; [|discriminate]. cbn [bind].
  destruct (if mn then _ else _) as [b'|]; [|discriminate]. cbn [bind]. intros H. injection H as <-. cbn. repeat split; auto.
Qed.
Lemma atom_of_fields mc mn i p a : atom_of mc mn i p = Ok a -> a_pos a = p /\ Some (a_occ a) = i_occ i /\ Some (a_uiso a) = i_uiso i /\ Some (a_uaniso a) = i_uaniso i /\
  exists b, a_b a = b /\ forall p' a', atom_of mc mn i p' = Ok a' -> a_b a' = b.
Proof.
  unfold atom_of, get. destruct (i_occ i) as [o|]; [|discriminate]. destruct mn as [mn|]; [|discriminate]. destruct (i_uiso i) as [u|]; [|discriminate].
  destruct (i_uaniso i) as [ua|]; [|discriminate]. cbn [bind]. intros H. destruct (make_atom_fields _ _ _ _ _ _ _ _ H) as (P & O & U & A & E).
  repeat split; try congruence. exists (a_b a). split; auto. intros p' a' H'. rewrite E in H'. injection H' as <-. reflexivity.
Qed.
Lemma group_atoms_sym g lh mc mn items atoms l w o h : is_group (g_ops g) -> In o (g_ops g) -> integral h -> Forall rigid_item items ->
  group_atoms g lh mc mn items = Ok atoms -> Forall (visible l w) atoms ->
  csum (map (term l w (mv (mT (rot o)) h)) atoms) = cmul (cis (- (2 * PI * dot h (tr o)))) (csum (map (term l w h) atoms)).
Proof.
  intros Gr Io Ih. revert atoms. induction items as [|i items IH]; intros atoms R H Vs; cbn [group_atoms] in H.
  - injection H as <-. cbn [map csum]. cxring.
  - inversion R as [|? ? Ri Rr]; subst. set (i' := if lh then with_uiso i else set_uaniso (with_uiso i)) in H.
    destruct (map_res (atom_of mc mn i') (symmetrize_real g (i_pos i))) as [as1|] eqn:E; [|discriminate]. cbn [bind] in H.
    destruct (group_atoms g lh mc mn items) as [as2|]; [|discriminate]. cbn [bind] in H. injection H as <-.
    apply Forall_app in Vs. destruct Vs as [V1 V2]. rewrite !map_app, !csum_app, (IH as2) by auto. apply map_res_In in E.
    assert (X : forall k, exists c, map (term l w k) as1 = map (cmul c) (map (fun x => phase k x (i_pos i)) (g_ops g)) /\ forall k', exists c', c' = c /\ map (term l w k') as1 = map (cmul c') (map (fun x => phase k' x (i_pos i)) (g_ops g))).
    { assert (Y : exists c, forall k, map (term l w k) as1 = map (cmul c) (map (fun x => phase k x (i_pos i)) (g_ops g))).
      { unfold symmetrize_real in E. clear - E V1 Ri. destruct as1 as [|a0 as1'] eqn:A0.
        - exists c0. inversion E. destruct (g_ops g); [reflexivity|discriminate].
        - exists (cscal (a_occ a0) (a_b a0)). intros k. rewrite <- A0 in *.
          assert (F0 : exists q, atom_of mc mn i' q = Ok a0) by (subst as1; inversion E; eauto). destruct F0 as (q & F0). clear A0 as1'.
          apply atom_of_fields in F0. destruct F0 as (_ & Fo & Fu & Fa & b0 & Fb & Fx).
          revert as1 E V1. induction (g_ops g) as [|x ops IHo]; intros as1 E V1; inversion E; subst; auto. cbn [map]. inversion V1; subst. f_equal; [|auto].
          assert (Z := H1). apply Fx in Z. apply atom_of_fields in H1. destruct H1 as (Hp & Ho & Hu & Ha & _).
          assert (Ru : rigid y).
          { assert (Qu : i_uiso i' = Some 0). { subst i'. destruct Ri as [[U|U] _]; destruct lh; cbn [with_uiso set_uaniso i_uiso]; rewrite U; reflexivity. }
            split; [congruence|]. destruct Ri as [_ [A|A]]; subst i'; destruct lh; cbn [with_uiso set_uaniso i_uaniso] in Ha; rewrite ?A in Ha; congruence. }
          unfold term. rewrite dwt_rigid by auto. rewrite Hp. unfold phase.
          assert (a_occ y = a_occ a0) by congruence. rewrite H, Z. cxring. }
      destruct Y as (c & Y). intros k. exists c. split; [apply Y|]. intros k'. exists c. split; auto. }
    destruct (X h) as (c & Xh & Xk). destruct (Xk (mv (mT (rot o)) h)) as (c' & -> & Xo). rewrite Xh, Xo, !csum_mul, (orbit_sum (g_ops g) o h) by auto. cxring.
Qed.

(** C47.  In a rigid material built with a space group, symmetry-equivalent integral reflections have structure
    factors differing by a phase only: F(h R) = exp(-2 pi i h.t) F(h) for every operation (R, t). *)
Theorem C47_space_group : forall c m s g o h F, make_material c = Ok m -> c_group c = Some s -> space_group s = Ok g -> In o (g_ops g) ->
  Forall rigid_item (c_composition c) -> integral h -> calc_nuc_str_fac m h = Some F ->
  calc_nuc_str_fac m (mv (mT (rot o)) h) = Some (cmul (cis (- (2 * PI * dot h (tr o)))) F) /\
  cabs (cmul (cis (- (2 * PI * dot h (tr o)))) F) = cabs F.
Proof.
  intros c m s g o h F Hm Hs Hg Io R Ih H. split; [|apply cabs_cis]. destruct (group_is_group s g Hg) as [Gr _].
  unfold make_material in Hm. destruct (mu_cell (c_composition c)) as [mu0|]; [|discriminate]. cbn [bind] in Hm. rewrite Hs, Hg in Hm. cbn [bind] in Hm.
  destruct (group_atoms g _ _ _ _) as [atoms|] eqn:E; [|discriminate]. cbn [bind] in Hm. destruct (c_magnetic c); [discriminate|].
  destruct (c_lattice c) as [l|]; [|discriminate]. injection Hm as <-. unfold calc_nuc_str_fac in *. cbn [m_lattice m_wavelength m_atoms] in *.
  apply nuc_sum_iff in H. destruct H as [Vs ->]. apply nuc_sum_iff. split; auto. symmetry.
  assert (R' : Forall rigid_item (map with_occ (c_composition c))) by (apply Forall_map; eapply Forall_impl; [|exact R]; intros i [U A]; split; [exact U|exact A]).
  exact (group_atoms_sym g _ _ _ _ atoms l _ o h Gr Io Ih R' E Vs).
Qed.
Print Assumptions C47_space_group.

(** C47.  Systematic absences: a reflection left fixed by an operation whose translation gives it another phase has F = 0. *)
Lemma cis_one x : cis (2 * PI * x) = (1, 0) -> exists n, x = IZR n.
Proof.
  intros H. injection H as C _. replace (2 * PI * x) with (2 * (PI * x)) in C by ring. rewrite cos_2a_sin in C.
  assert (S : sin (PI * x) = 0) by nra. apply sin_eq_0_0 in S. destruct S as (n & E). exists n. assert (P := PI_RGT_0). nra.
Qed.
Theorem C47_absences : forall c m s g o h F, make_material c = Ok m -> c_group c = Some s -> space_group s = Ok g -> In o (g_ops g) ->
  Forall rigid_item (c_composition c) -> integral h -> mv (mT (rot o)) h = h -> (forall n, dot h (tr o) <> IZR n) ->
  calc_nuc_str_fac m h = Some F -> F = (0, 0).
Proof.
  intros c m s g o h F Hm Hs Hg Io R Ih Fix Ph H. destruct (C47_space_group c m s g o h F Hm Hs Hg Io R Ih H) as [E _]. rewrite Fix, H in E. injection E as E.
  set (z := cis (- (2 * PI * dot h (tr o)))) in *.
  assert (Nz : z <> (1, 0)).
  { intros Z. subst z. replace (- (2 * PI * dot h (tr o))) with (2 * PI * (- dot h (tr o))) in Z by ring. apply cis_one in Z. destruct Z as (n & Z).
    apply (Ph (- n)%Z). rewrite opp_IZR. lra. }
  destruct z as [x y], F as [f1 f2]. unfold cmul in E. cbn [fst snd] in E. injection E as E1 E2.
  assert (D : (x - 1) ^ 2 + y ^ 2 <> 0). { intros D. apply Nz. assert (x = 1) by nra. assert (y = 0) by nra. congruence. }
  assert (A1 : (x - 1) * f1 - y * f2 = 0) by lra. assert (A2 : (x - 1) * f2 + y * f1 = 0) by lra.
  assert (B1 : ((x - 1) ^ 2 + y ^ 2) * f1 = 0) by (replace (((x - 1) ^ 2 + y ^ 2) * f1) with ((x - 1) * ((x - 1) * f1 - y * f2) + y * ((x - 1) * f2 + y * f1)) by ring; rewrite A1, A2; ring).
  assert (B2 : ((x - 1) ^ 2 + y ^ 2) * f2 = 0) by (replace (((x - 1) ^ 2 + y ^ 2) * f2) with ((x - 1) * ((x - 1) * f2 + y * f1) - y * ((x - 1) * f1 - y * f2)) by ring; rewrite A1, A2; ring).
  apply Rmult_integral in B1, B2. f_equal; tauto.
Qed.
Print Assumptions C47_absences.

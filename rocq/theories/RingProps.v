(** Strength and label of the aluminium rings (C111). *)
From Coq Require Import String List ZArith QArith Reals Qreals Lra Lia Psatz Bool.
From Flocq Require Import Core.
From Verif Require Import Base LinAlg LatticeModel LatticeProof LatticeProps SymModel AngleProps SpurionModel SpurionProps EnergyFloatModel BinFloatProps.
From Verif Require Import StructModel StructProps RingModel.
Import ListNotations.
Local Open Scope R_scope.

(** The four atoms of the cell. *)
Definition sites : list v3 := [V 0 0 0; V 0 (1 / 2) (1 / 2); V (1 / 2) 0 (1 / 2); V (1 / 2) (1 / 2) 0].
(** The scattering length of aluminium in units of 10 fm. *)
Definition b_al : R := 3449 / 10000.

Definition centre (o : op) (c : Q * Q * Q) : bool :=
  let '(x, y, z) := c in (Qeq_bool (t1 o) x && Qeq_bool (t2 o) y && Qeq_bool (t3 o) z)%bool.
Definition centres : list (Q * Q * Q) := [(0, 0, 0); (0, 1 # 2, 1 # 2); (1 # 2, 0, 1 # 2); (1 # 2, 1 # 2, 0)]%Q.
Lemma fm3m : exists g, space_group (SStr "Fm-3m") = Ok g /\ List.length (g_ops g) = 192%nat /\
  forallb (fun o => existsb (centre o) centres) (g_ops g) = true /\ existsb (fun o => centre o (0, 1 # 2, 1 # 2)%Q) (g_ops g) = true.
Proof.
  assert (H : match space_group (SStr "Fm-3m") with
    | Ok g => (Nat.eqb (List.length (g_ops g)) 192 && (forallb (fun o => existsb (centre o) centres) (g_ops g) && existsb (fun o => centre o (0, 1 # 2, 1 # 2)%Q) (g_ops g)))%bool
    | Err _ => false end = true) by (vm_compute; reflexivity).
  destruct (space_group (SStr "Fm-3m")) as [g|]; [|discriminate]. exists g. split; [reflexivity|].
  apply andb_prop in H. destruct H as [A B]. apply andb_prop in B. split; [apply Nat.eqb_eq; exact A|exact B].
Qed.
Lemma half : Q2R (1 # 2) = 1 / 2.
Proof. unfold Q2R. cbn. lra. Qed.
Lemma nought : Q2R 0 = 0.
Proof. unfold Q2R. cbn. lra. Qed.
Lemma image o x y z : centre o (x, y, z) = true -> apply_real o (V 0 0 0) = V (Q2R x) (Q2R y) (Q2R z).
Proof.
  intros H. cbn in H. apply andb_prop in H. destruct H as [H C]. apply andb_prop in H. destruct H as [A B].
  apply Qeq_bool_iff in A, B, C. apply Qeq_eqR in A, B, C. unfold apply_real, tr. apply v3_eq; unfold LinAlg.vadd, mv, rot, dot; cbn [vx vy vz m11 m12 m13 m21 m22 m23 m31 m32 m33]; rewrite ?A, ?B, ?C; ring.
Qed.
Lemma image_site o : existsb (centre o) centres = true -> In (apply_real o (V 0 0 0)) sites.
Proof.
  intros H. apply existsb_exists in H. destruct H as (((x & y) & z) & I & H). rewrite (image _ _ _ _ H).
  cbn in I. destruct I as [E|[E|[E|[E|[]]]]]; injection E as <- <- <-; rewrite ?half, ?nought; cbn; tauto.
Qed.

Definition al_atom (p : v3) : atom := mkAtom "Al" p 1 (cscal (/ 10) (Q2R (3449 # 1000), 0)) 0 zero3 (opt_R (Some (299 # 200))) (opt_R (Some (41 # 5000))) (opt_R (Some (231 # 1000))).
Lemma atoms_of mcell ps : map_res (atom_of mcell (Some false) (set_uaniso (with_uiso (with_occ (mkItem "Al" (V 0 0 0) None None None))))) ps = Ok (map al_atom ps).
Proof.
  assert (S : scatterer_of "Al" = Some (AtomData.mkS "Al" (AtomData.RealLength (3449 # 1000)) (Some (299 # 200)) (Some (41 # 5000)) (Some (231 # 1000)))%Q) by (vm_compute; reflexivity).
  induction ps as [|p ps IH]; [reflexivity|]. cbn [map_res map]. rewrite IH.
  unfold atom_of. cbn [set_uaniso with_uiso with_occ i_occ i_uiso i_uaniso i_ion i_pos get bind].
  unfold make_atom. rewrite S. reflexivity.
Qed.
Lemma material w : exists m mu mc ps, make_material (al_crystal w) = Ok m /\ m = mkMat mu mc (map al_atom ps) w al_cell /\
  List.length ps = 192%nat /\ Forall (fun p => In p sites) ps /\ In (V 0 (1 / 2) (1 / 2)) ps.
Proof.
  destruct fm3m as (g & E & L & F & X). destruct (mu_cell [mkItem "Al" (V 0 0 0) None None None]) as [mu|] eqn:M; [|vm_compute in M; discriminate].
  exists (mkMat mu (mu * 1) (map al_atom (symmetrize_real g (V 0 0 0))) w al_cell), mu, (mu * 1), (symmetrize_real g (V 0 0 0)).
  split; [|split; [reflexivity|split; [|split]]].
  - unfold make_material, al_crystal. cbn [c_formula_units c_composition c_group c_mass_norm c_magnetic c_lattice c_wavelength]. rewrite M. cbn [bind]. rewrite E. cbn [bind map last].
    cbn [has_uaniso i_uaniso with_occ]. cbn [group_atoms]. cbn [i_pos i_occ i_ion i_uiso i_uaniso].
    assert (A := atoms_of (mu * 1) (symmetrize_real g (V 0 0 0))). match goal with |- context [map_res ?f ?l] => replace (map_res f l) with (Ok (map al_atom (symmetrize_real g (V 0 0 0)))) by (symmetry; exact A) end. cbn [bind]. rewrite app_nil_r. reflexivity.
  - unfold symmetrize_real. rewrite map_length. exact L.
  - apply Forall_forall. intros p I. apply in_map_iff in I. destruct I as (o & <- & I). rewrite forallb_forall in F. apply image_site, F, I.
  - apply existsb_exists in X. destruct X as (o & I & C). apply in_map_iff. exists o. split; [|exact I]. rewrite (image _ _ _ _ C), half, nought. reflexivity.
Qed.

(** C111.  The material behind the rings has 192 atoms of occupancy one, on the four sites of the cell. *)
Theorem C111_atoms : forall w, exists m, make_material (al_crystal w) = Ok m /\ List.length (m_atoms m) = 192%nat /\
  forall a, In a (m_atoms m) -> a_ion a = "Al"%string /\ a_occ a = 1 /\ a_b a = (b_al, 0) /\ In (a_pos a) sites.
Proof.
  intros w. destruct (material w) as (m & mu & mc & ps & E & -> & L & F & _). eexists. split; [exact E|]. cbn [m_atoms]. split; [rewrite map_length; exact L|].
  intros a I. apply in_map_iff in I. destruct I as (p & <- & I). rewrite Forall_forall in F. cbn. repeat split; [|apply F; exact I].
  apply cx_eq; unfold cscal, b_al, Q2R; cbn; lra.
Qed.
Print Assumptions C111_atoms.

Lemma face_spacing x y z : In (V x y z) sites -> V x y z <> V 0 0 0 -> get_d_spacing al_cell (V x y z) = al_a * sqrt 2.
Proof.
  intros I N. assert (Nz : x <> 0 \/ y <> 0 \/ z <> 0).
  { destruct (Req_dec x 0) as [->|]; [|tauto]. destruct (Req_dec y 0) as [->|]; [|tauto]. destruct (Req_dec z 0) as [->|]; [|tauto]. contradiction. }
  assert (Q := q_right al_cell x y z al_cell_ok eq_refl eq_refl eq_refl Nz). assert (PP := PI_RGT_0). assert (Pa : 0 < al_a) by (unfold al_a; lra).
  change (la al_cell) with al_a in Q. change (lb al_cell) with al_a in Q. change (lc al_cell) with al_a in Q.
  assert (S : (2 * PI * x / al_a) ^ 2 + (2 * PI * y / al_a) ^ 2 + (2 * PI * z / al_a) ^ 2 = (2 * PI / al_a) ^ 2 * / 2).
  { cbn in I. destruct I as [E|[E|[E|[E|[]]]]]; injection E as <- <- <-; [contradiction|field; lra|field; lra|field; lra]. }
  rewrite S in Q. assert (Pq : 0 < 2 * PI / al_a) by (apply Rdiv_lt_0_compat; lra). rewrite sqrt_mult in Q by (try apply pow2_ge_0; lra). rewrite sqrt_pow2 in Q by lra.
  assert (S2 : sqrt 2 * sqrt 2 = 2) by (apply sqrt_sqrt; lra). assert (P2 : 0 < sqrt 2) by (apply sqrt_lt_R0; lra).
  rewrite sqrt_inv in Q. unfold get_q in Q.
  destruct (C22_q_times_d al_cell (V x y z) al_cell_ok N) as (D & _).
  set (d := get_d_spacing _ _) in *. apply (Rmult_eq_reg_l (2 * PI / d)); [|apply Rmult_integral_contrapositive_currified; [lra|apply Rinv_neq_0_compat; lra]].
  replace (2 * PI / d * d) with (2 * PI) by (field; lra). rewrite Q. field. split; lra.
Qed.
Lemma site_angle p w : In p sites -> 0 < w ->
  (p = V 0 0 0 \/ w <= 2 * sqrt 2 * al_a -> two_theta_np al_cell p w <> None) /\ (p <> V 0 0 0 -> 2 * sqrt 2 * al_a < w -> two_theta_np al_cell p w = None).
Proof.
  intros I Pw. unfold two_theta_np. destruct (Req_EM_T (form (Gstar al_cell) p p) 0) as [Z|NZ].
  - split; [discriminate|]. intros N _. exfalso. destruct (C22_q_times_d al_cell p al_cell_ok N) as (D & _).
    rewrite d_form in D. rewrite Z in D. unfold Rdiv in D. rewrite ?Rmult_0_l, sqrt_0, Rinv_0, Rmult_0_r in D. lra.
  - assert (N : p <> V 0 0 0). { intros ->. apply NZ. unfold form, mv, dot. cbn [vx vy vz]. ring. }
    assert (B := C22_bragg al_cell p w al_cell_ok N Pw). destruct p as [x y z]. rewrite (face_spacing x y z I N) in B.
    destruct (get_two_theta al_cell (V x y z) w).
    + split; [discriminate|]. intros _ L. lra.
    + split; [|reflexivity]. intros [E|L]; [contradiction|lra].
Qed.
Lemma whole_phase r p : In r al_reflections -> In p sites -> exists n, dot (hkl_of r) p = IZR n.
Proof.
  intros Ir Ip. cbn in Ir, Ip.
  destruct Ir as [<-|[<-|[<-|[<-|[]]]]]; destruct Ip as [<-|[<-|[<-|[<-|[]]]]]; unfold dot; cbn [hkl_of vx vy vz];
  first [exists 0%Z; lra | exists 1%Z; lra | exists 2%Z; lra | exists 3%Z; lra].
Qed.
Lemma term_of r p w : In r al_reflections -> In p sites -> w <> 0 -> nuc_term al_cell w (hkl_of r) (al_atom p) = match two_theta_np al_cell p w with Some _ => Some (b_al, 0) | None => None end.
Proof.
  intros Ir Ip N. unfold nuc_term, debye_waller. destruct (Req_EM_T w 0) as [Z|_]; [contradiction|]. cbn [a_pos al_atom a_occ a_b a_uiso a_uaniso].
  destruct (two_theta_np al_cell p w) as [t|]; [|reflexivity]. f_equal. destruct (whole_phase r p Ir Ip) as (n & ->). rewrite cis_int.
  replace (-8 * PI ^ 2 * 0 * sin (rad (t / 2)) ^ 2 / w ^ 2) with 0 by (unfold Rdiv; ring).
  replace (- dot p (mv zero3 p)) with 0 by (unfold dot, mv, zero3; cbn [vx vy vz m11 m12 m13 m21 m22 m23 m31 m32 m33]; ring).
  rewrite exp_0. apply cx_eq; unfold cscal, cmul, b_al, Q2R; cbn; lra.
Qed.
Lemma sum_of r w ps : In r al_reflections -> 0 < w -> Forall (fun p => In p sites) ps ->
  (w <= 2 * sqrt 2 * al_a -> nuc_sum al_cell w (hkl_of r) (map al_atom ps) = Some (INR (List.length ps) * b_al, 0)) /\
  (2 * sqrt 2 * al_a < w -> In (V 0 (1 / 2) (1 / 2)) ps -> nuc_sum al_cell w (hkl_of r) (map al_atom ps) = None).
Proof.
  intros Ir Pw F. induction F as [|p ps Ip F [IH1 IH2]].
  - split; [intros _; cbn; f_equal; apply cx_eq; cbn; lra|intros _ []].
  - cbn [map nuc_sum]. rewrite term_of by (try assumption; lra). destruct (site_angle p w Ip Pw) as [A B]. split.
    + intros L. destruct (two_theta_np al_cell p w); [|exfalso; apply A; auto]. rewrite (IH1 L). f_equal. cbn [List.length]. rewrite S_INR. apply cx_eq; unfold cadd; cbn [fst snd]; ring.
    + intros L [E|I].
      * subst p. rewrite B; [reflexivity| |exact L]. intros E. apply (f_equal vy) in E. cbn in E. lra.
      * rewrite (IH2 L I). destruct (two_theta_np al_cell p w); reflexivity.
Qed.

(** C111.  Every line shows the same strength, that of 192 atoms scattering in phase, up to a wavelength of 2 sqrt 2 times the
    lattice constant (11.45 angstroem); above, no line has one. *)
Theorem C111_strength : forall w r, 0 < w -> In r al_reflections ->
  exists x, ring_strength w r = Ok x /\
  (w <= 2 * sqrt 2 * al_a -> x = Some ((192 * b_al) ^ 2) /\ shown x = Some 4385%Z) /\
  (2 * sqrt 2 * al_a < w -> x = None /\ shown x = None).
Proof.
  intros w r Pw Ir. destruct (material w) as (m & mu & mc & ps & E & -> & L & F & X). unfold ring_strength. rewrite E. cbn [bind].
  unfold calc_nuc_str_fac. cbn [m_lattice m_wavelength m_atoms]. destruct (sum_of r w ps Ir Pw F) as [A B]. eexists. split; [reflexivity|]. split; intros H.
  - rewrite (A H). rewrite L. cbn [option_map]. assert (V : abs2 (INR 192 * b_al, 0) = (192 * b_al) ^ 2).
    { unfold abs2. cbn [fst snd]. rewrite (INR_IZR_INZ 192). cbn [Z.of_nat Pos.of_succ_nat Pos.succ]. replace (IZR (Z.of_nat 192)) with 192 by reflexivity. rewrite pow2_sqrt; [ring|]. nra. }
    rewrite V. split; [reflexivity|]. cbn [shown option_map]. f_equal. apply Znearest_imp. unfold b_al. rewrite Rabs_right; lra.
  - rewrite (B H X). split; reflexivity.
Qed.
Print Assumptions C111_strength.

(** C111.  The cell has four atoms; the strength shown is 2304 times theirs. *)
Theorem C111_cell_refuted : exists w r x, 0 < w /\ In r al_reflections /\ ring_strength w r = Ok (Some x) /\ x = 2304 * (INR (List.length sites) * b_al) ^ 2 /\ NoDup sites.
Proof.
  assert (P2 : 1 < sqrt 2) by (rewrite <- sqrt_1 at 1; apply sqrt_lt_1; lra).
  destruct (C111_strength 2 (1, 1, 1)%Z ltac:(lra) ltac:(cbn; tauto)) as (x & E & A & _).
  destruct A as [-> _]; [unfold al_a; lra|]. exists 2, (1, 1, 1)%Z, ((192 * b_al) ^ 2). split; [lra|]. split; [cbn; tauto|]. split; [exact E|].
  split; [cbn; unfold b_al; lra|].
  assert (D : forall a b c d e f, V a b c = V d e f -> a = d /\ b = e /\ c = f) by (intros * H; injection H; auto).
  repeat constructor; cbn; intros H; repeat (destruct H as [H|H]; [apply D in H; lra|]); contradiction.
Qed.
Print Assumptions C111_cell_refuted.

(** C111.  The label names the fraction of the wavelength, in spite of rounding. *)
Theorem C111_label : forall w n, bpow radix2 (-800) <= w -> In n [3%nat; 2%nat; 1%nat] -> label w n = Z.of_nat n.
Proof.
  intros w n Lw I. assert (Pw : 0 < w) by (assert (B := bpow_gt_0 radix2 (-800)); lra). assert (U := u_small). assert (U9 : u <= / 10 ^ 9) by (apply Rle_trans with (1 := proj2 U); apply Rinv_le_contravar; lra).
  assert (Nn : 1 <= INR n <= 3) by (cbn in I; intuition (subst; cbn; lra)).
  assert (F : Rabs (fraction w n - w / INR n) <= 2 * (u * w)).
  { assert (R : Rabs (rnd (w / INR n) - w / INR n) <= (1 + 1 / 4) * (u * w)).
    { apply rnd_within; [apply Rle_trans with (2 := Lw); apply bpow_le; lia|]. rewrite Rabs_right by (apply Rle_ge, Rlt_le, Rdiv_lt_0_compat; lra). apply (Rmult_le_reg_r (INR n)); [lra|]. unfold Rdiv. rewrite Rmult_assoc, Rinv_l by lra. nra. }
    cbn in I. destruct I as [<-|[<-|[<-|[]]]]; cbn [fraction]; [| |cbn; replace (w / 1) with w by field; rewrite Rminus_diag_eq, Rabs_R0 by reflexivity; nra]; (apply Rle_trans with (1 := R); nra). }
  set (f := fraction w n) in *. assert (Wn : w / INR n * INR n = w) by (field; lra). assert (W3 : w / 3 <= w / INR n) by (unfold Rdiv; apply Rmult_le_compat_l; [lra|apply Rinv_le_contravar; lra]).
  apply Rabs_le_inv in F. assert (UW : u * w <= / 10 ^ 9 * w) by (apply Rmult_le_compat_r; lra). assert (UW0 : 0 <= u * w) by nra.
  assert (Pf : w / 4 < f) by lra.
  assert (Q : Rabs (w / f - INR n) <= 1 / 10).
  { replace (w / f - INR n) with ((w / INR n - f) * INR n / f) by (field; lra). unfold Rdiv at 1. rewrite Rabs_mult, (Rabs_right (/ f)) by (apply Rle_ge, Rlt_le, Rinv_0_lt_compat; lra).
    apply (Rmult_le_reg_r f); [lra|]. rewrite Rmult_assoc, Rinv_l, Rmult_1_r by lra. rewrite Rabs_mult, (Rabs_right (INR n)) by lra.
    assert (Rabs (w / INR n - f) <= 2 * (u * w)) by (apply Rabs_le; lra). assert (Rabs (w / INR n - f) * INR n <= 2 * (u * w) * 3) by (apply Rmult_le_compat; [apply Rabs_pos|lra|assumption|lra]). lra. }
  unfold label. fold f. apply Znearest_imp. rewrite <- INR_IZR_INZ. apply Rabs_le_inv in Q.
  assert (E : Rabs (rnd (w / f) - w / f) <= (4 + 1 / 4) * (u * 1)).
  { apply rnd_within; [change 1 with (bpow radix2 0); apply bpow_le; lia|]. rewrite Rabs_right; lra. }
  apply Rabs_le_inv in E. apply Rabs_lt. lra.
Qed.
Print Assumptions C111_label.

Example C111_case : 0 < 2 <= 2 * sqrt 2 * al_a /\ bpow radix2 (-800) <= 2 /\ In (3, 1, 1)%Z al_reflections.
Proof.
  assert (P2 : 1 < sqrt 2) by (rewrite <- sqrt_1 at 1; apply sqrt_lt_1; lra). repeat split; [lra|unfold al_a; lra| |cbn; tauto].
  change 2 with (bpow radix2 1). apply bpow_le. lia.
Qed.

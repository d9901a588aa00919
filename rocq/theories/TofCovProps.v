(** C44: the matrix returned is the inverse of the covariance of momentum and energy transfer, and when it exists. *)
From Coq Require Import String List ZArith Reals Lra Lia Psatz Classical.
From Coquelicot Require Import Coquelicot.
From Verif Require Import Base LinAlg EnergyModel EnergyProps LatticeModel KinModel KinProps MatModel MatInv CompModel TofModel TofProps.
Import ListNotations.
Local Open Scope R_scope.
Local Notation sum := MatInv.sum.

(** ** Semi-definite matrices *)
Lemma qf_plus n M x y t : symm n M -> qf n M (fun i => y i + t * x i) = qf n M y + 2 * t * dotv n y (mulv n M x) + t ^ 2 * qf n M x.
Proof.
  intros Sm. rewrite !qf_dot.
  assert (E : forall a, dotv n a (mulv n M (fun i => y i + t * x i)) = dotv n a (mulv n M y) + t * dotv n a (mulv n M x)).
  { intros a. unfold dotv. rewrite <- sum_scal, <- sum_add. apply sum_ext. intros i _. unfold mulv. replace (a i * sum n (fun l => M i l * y l) + t * (a i * sum n (fun l => M i l * x l))) with (a i * (sum n (fun l => M i l * y l) + t * sum n (fun l => M i l * x l))) by ring.
    rewrite <- (sum_scal n t (fun l => M i l * x l)), <- sum_add. f_equal. apply sum_ext. intros l _. ring. }
  assert (F : forall b, dotv n (fun i => y i + t * x i) b = dotv n y b + t * dotv n x b).
  { intros b. unfold dotv. rewrite <- sum_scal, <- sum_add. apply sum_ext. intros i _. ring. }
  rewrite E, !F. assert (H : dotv n x (mulv n M y) = dotv n y (mulv n M x)).
  { rewrite dotv_tr, dotv_comm. apply dotv_ext; auto. intros i Li. apply (mulv_ext n n); auto. apply eqm_sym. exact Sm. }
  rewrite H. ring.
Qed.
Lemma singular_iff n M : symm n M -> (forall x, 0 <= qf n M x) -> (minv n M = None <-> exists x, nzv n x /\ qf n M x = 0).
Proof.
  intros Sm P. split.
  - intros H. apply NNPP. intros C. assert (D : posdef n M).
    { split; auto. intros x Hx. destruct (Rle_lt_or_eq_dec _ _ (P x)) as [L|E]; auto. exfalso. apply C. exists x. auto. }
    destruct (posdef_minv n M D) as (N & E). congruence.
  - intros (x & Nx & Z). destruct (minv n M) as [N|] eqn:EN; auto. exfalso. destruct (minv_inverse n M N EN) as (A & B).
    set (y := mulv n (tr N) x). assert (D : dotv n y (mulv n M x) = dotv n x x).
    { unfold y. rewrite <- dotv_tr. apply dotv_ext; auto. intros i Li. rewrite <- mulv_mul.
      rewrite (mulv_ext n n (mul n N M) idm x x i Li B (fun _ _ => eq_refl)). unfold mulv. apply sum_delta. exact Li. }
    assert (X : 0 < dotv n x x). { destruct Nx as (i & Li & Ni). unfold dotv. apply (sum_pos n (fun i => x i * x i) i); auto; [intros; nra|]. assert (0 < (x i) ^ 2) by (apply pow2_gt_0; exact Ni). nra. }
    specialize (P (fun i => y i + (- (qf n M y + 1) / (2 * dotv n x x)) * x i)). rewrite qf_plus in P by exact Sm. rewrite D, Z in P.
    replace (2 * (- (qf n M y + 1) / (2 * dotv n x x)) * dotv n x x) with (- (qf n M y + 1)) in P by (field; lra). lra.
Qed.
Lemma inverse_rot n O C N : eqm n n (mul n O (tr O)) idm -> eqm n n (mul n (tr O) O) idm -> inverse n C N ->
  inverse n (mul n (tr O) (mul n C O)) (mul n (tr O) (mul n N O)).
Proof.
  intros H1 H2. assert (K : forall X Y, eqm n n (mul n X Y) idm -> eqm n n (mul n (mul n (tr O) (mul n X O)) (mul n (tr O) (mul n Y O))) idm).
  { intros X Y E. eapply eqm_trans; [apply mul_assoc|]. eapply eqm_trans; [apply mul_ext; [apply eqm_refl|]|exact H2].
    eapply eqm_trans; [apply mul_assoc|]. eapply eqm_trans; [apply mul_ext; [apply eqm_refl|apply eqm_sym, mul_assoc]|].
    eapply eqm_trans; [apply mul_ext; [apply eqm_refl|apply mul_ext; [exact H1|apply eqm_refl]]|].
    eapply eqm_trans; [apply mul_ext; [apply eqm_refl|apply mul_id_l]|].
    eapply eqm_trans; [apply eqm_sym, mul_assoc|]. eapply eqm_trans; [apply mul_ext; [exact E|apply eqm_refl]|]. apply mul_id_l. }
  intros (A & B). split; apply K; auto.
Qed.

(** ** The covariance *)
Lemma nth_sq l p : nth p (map (fun s => s ^ 2) l) 0 = nth p l 0 ^ 2.
Proof. replace 0 with (0 ^ 2) at 1 by ring. exact (map_nth (fun s => s ^ 2) l 0 p). Qed.
Lemma cov_entry k w i j : covariance k w i j = sum 9 (fun p => nth p (w_sig w) 0 ^ 2 * jacobi k w i p * jacobi k w j p).
Proof.
  unfold covariance, mul at 1. apply sum_ext. intros p Hp. unfold mul, diag, tr.
  rewrite (sum_ext 9 _ (fun l => idm p l * (nth p (w_sig w) 0 ^ 2 * jacobi k w j l))).
  - rewrite (sum_delta 9 p (fun l => nth p (w_sig w) 0 ^ 2 * jacobi k w j l) Hp). ring.
  - intros l _. unfold idm. destruct (Nat.eqb p l); [rewrite nth_sq; ring|ring].
Qed.
Lemma cov_qf k w x : qf 4 (covariance k w) x = sum 9 (fun p => (nth p (w_sig w) 0 * mulv 4 (tr (jacobi k w)) x p) ^ 2).
Proof. unfold covariance. rewrite qf_congr, qf_diag. apply sum_ext. intros p _. rewrite nth_sq. ring. Qed.
Lemma cov_symm k w : symm 4 (covariance k w).
Proof. intros i j _ _. unfold tr. rewrite !cov_entry. apply sum_ext. intros p _. ring. Qed.
Lemma cov_nonneg k w x : 0 <= qf 4 (covariance k w) x.
Proof. rewrite cov_qf. apply sum_nonneg. intros p _. apply pow2_ge_0. Qed.
Lemma sum_sq_zero n f : sum n (fun i => f i ^ 2) = 0 <-> forall i, (i < n)%nat -> f i = 0.
Proof.
  split.
  - intros H i Li. apply NNPP. intros N. assert (L : 0 < sum n (fun i => f i ^ 2)) by (apply (sum_pos n (fun i => f i ^ 2) i); [intros; apply pow2_ge_0|exact Li|apply pow2_gt_0; exact N]). lra.
  - intros H. apply sum_zero. intros i Li. rewrite H by exact Li. ring.
Qed.
Lemma cov_singular k w : minv 4 (covariance k w) = None <->
  exists x, nzv 4 x /\ forall p, (p < 9)%nat -> nth p (w_sig w) 0 * mulv 4 (tr (jacobi k w)) x p = 0.
Proof.
  rewrite (singular_iff 4 _ (cov_symm k w) (cov_nonneg k w)). split; intros (x & N & H); exists x; (split; [exact N|]).
  - rewrite cov_qf in H. apply (proj1 (sum_sq_zero 9 _) H).
  - rewrite cov_qf. apply (proj2 (sum_sq_zero 9 _) H).
Qed.
Lemma rot4_orth a : eqm 4 4 (mul 4 (rot4 a) (tr (rot4 a))) idm /\ eqm 4 4 (mul 4 (tr (rot4 a)) (rot4 a)) idm.
Proof.
  assert (E := sin2_cos2 a). unfold Rsqr in E.
  split; intros i j Hi Hj; assert (Ci : (i = 0 \/ i = 1 \/ i = 2 \/ i = 3)%nat) by lia; assert (Cj : (j = 0 \/ j = 1 \/ j = 2 \/ j = 3)%nat) by lia;
    destruct Ci as [->|[->|[->| ->]]]; destruct Cj as [->|[->|[->| ->]]]; unfold mul, tr, rot4, mx, idm; cbn [sum nth Nat.eqb]; nra.
Qed.

(** ** What a returned matrix is *)
Lemma Fin_inj a b : Fin a = Fin b -> a = b. Proof. congruence. Qed.
Lemma Some_inj A (a b : A) : Some a = Some b -> a = b. Proof. congruence. Qed.
Lemma wave_fin c e k : physical c -> wavevec (values_of c e) = Fin k -> 0 <= e.
Proof.
  intros P H. destruct (Rle_lt_dec 0 e) as [L|L]; auto. exfalso. assert (G := C36_gain c e 0 true P L). unfold kfree in G. rewrite H in G.
  destruct (Rlt_dec (- k ^ 2 + 0 ^ 2) 0); discriminate.
Qed.
Lemma speed_fin c e v : physical c -> 0 < e -> vel (values_of c e) = Fin v -> 0 < v /\ c_m c * v ^ 2 / 2 * c_J c = e.
Proof.
  intros P He Hv. destruct (C17_relations c QEnergy e (values_of c e) P He eq_refl) as (l & k & v' & _ & _ & Hv' & _ & _ & E & _).
  rewrite Hv in Hv'. injection Hv' as <-. split; [|symmetry; exact E]. unfold values_of in Hv. cbn [vel] in Hv. assert (A := vel_arg c e P He). unfold fsqrt in Hv.
  destruct (Rle_lt_dec 0 (2 * e / c_J c / c_m c)); [|discriminate]. injection Hv as <-. apply sqrt_lt_R0. exact A.
Qed.
Lemma wave_pos c e : physical c -> 0 < e -> exists k l, wavevec (values_of c e) = Fin k /\ wavelen (values_of c e) = Fin l /\ 0 < k /\ 0 < l /\ l * k = 2 * PI /\ kinetic c k = e.
Proof.
  intros P He. destruct (C17_relations c QEnergy e (values_of c e) P He eq_refl) as (l & k & v & Hl & Hk & _ & LK & E & _). exists k, l.
  assert (Pl : 0 < l).
  { unfold values_of in Hl. cbn [wavelen] in Hl. destruct (Req_EM_T e 0); [lra|]. unfold wavelength_of, fsqrt in Hl. assert (A := wave_arg c e P He).
    destruct (Rle_lt_dec 0 _); [|discriminate]. cbn [fmap] in Hl. apply Fin_inj in Hl. rewrite <- Hl. apply Rmult_lt_0_compat; [apply sqrt_lt_R0; exact A|apply pow_lt; lra]. }
  assert (Pi := PI_RGT_0). repeat split; auto. apply (Rmult_lt_reg_l l); [exact Pl|]. rewrite Rmult_0_r, LK. lra.
Qed.
Lemma final_energy c kf : physical c -> 0 < kf -> exists Ef, build c QWavevector kf = Ok (values_of c (kinetic c kf)) /\ Ef = values_of c (kinetic c kf) /\ 0 < kinetic c kf.
Proof.
  intros P Hk. exists (values_of c (kinetic c kf)). assert (K : 0 < kinetic c kf) by (rewrite kinetic_sq; apply Rmult_lt_0_compat; [apply unit_pos; exact P|apply pow_lt; exact Hk]).
  split; [|split; [reflexivity|exact K]]. unfold build, energy_of. destruct (Req_EM_T kf 0); [lra|]. f_equal. f_equal. unfold kinetic.
  destruct P as (Hh & _ & Hm & HJ & ->). assert (Pi := PI_RGT_0). field. repeat split; lra.
Qed.

Theorem C44_covariance c k I Q W r0 m : physical c -> k_hbar k <> 0 -> k_e k <> 0 -> calc_in_Q c k I Q W = Numbers r0 m ->
  exists tp tm td lpm lms lsd slpm slms slsd sti sfi st sf sph vi vf ki kf t f a,
    parameters c I = Ok (map Fin [tp; tm; td; lpm; lms; lsd; slpm; slms; slsd; sti; sfi; st; sf]) /\
    spherical (f_detector I) = Ok sph /\
    (0 < vi /\ c_m c * vi ^ 2 / 2 * c_J c = f_ei I) /\ (0 < vf /\ c_m c * vf ^ 2 / 2 * c_J c = f_ei I - W) /\
    (0 < ki /\ kinetic c ki = f_ei I) /\ (0 < kf /\ kinetic c kf = f_ei I - W) /\
    (0 <= t <= PI /\ 2 * ki * sin (t / 2) = get_q (s_cell (f_sample I)) Q) /\
    f = PI / 2 - rad (get_phi (s_cell (f_sample I)) (s_u (f_sample I)) (s_v (f_sample I)) Q) /\
    (- PI <= a <= 0 /\ kf ^ 2 = ki ^ 2 + get_q (s_cell (f_sample I)) Q ^ 2 - 2 * ki * get_q (s_cell (f_sample I)) Q * cos a) /\
    (forall D : mat,
      let x : vec := fun p => nth p [lpm / vi; lms / vi + lsd / vf; lpm; lms; lsd; rad (f_theta_i I); rad (f_phi_i I); t; f] 0 in
      let variance := [tp ^ 2 + tm ^ 2; tm ^ 2 + td ^ 2; slpm ^ 2; slms ^ 2; slsd ^ 2; sti ^ 2; sfi ^ 2; st ^ 2; sf ^ 2] in
      (forall i p, (i < 4)%nat -> (p < 9)%nat -> is_derive (fun s => observed k sph (upd x p s) i) (x p) (D i p)) ->
      inverse 4 (mul 4 (tr (rot4 a)) (mul 4 (fun i j => sum 9 (fun p => nth p variance 0 * D i p * D j p)) (rot4 a))) m) /\
    posdef 4 m /\ 0 < r0 /\ r0 * qf 4 m (point4 Q W) = 2 * ln 2.
Proof.
  intros P Kh Ke. unfold calc_in_Q.
  destruct (parameters c I) as [ps|] eqn:EP; [|discriminate]. destruct (wavevec (values_of c (f_ei I))) as [ki| |] eqn:Eki; [|destruct (spherical _); discriminate..].
  destruct (kfree c W ki true) as [okf|] eqn:Ekf; [|discriminate]. destruct (spherical (f_detector I)) as [sph|] eqn:ES; [|discriminate].
  destruct okf as [kf| |]; [|discriminate..]. cbv zeta. destruct (Req_EM_T kf 0) as [|Nkf]; [discriminate|].
  destruct (build c QWavevector kf) as [Ef|] eqn:EB; [|discriminate].
  destruct (prepare I Q ps (values_of c (f_ei I)) Ef sph) as [w|] eqn:EW; [|destruct (angle_ki_Q ki kf (get_q (s_cell (f_sample I)) Q) (-1) false); discriminate].
  destruct (minv 4 (covariance k w)) as [reso|] eqn:EM; [|discriminate].
  destruct (angle_ki_Q ki kf (get_q (s_cell (f_sample I)) Q) (-1) false) as [a|] eqn:EA; [|discriminate].
  destruct (Req_EM_T _ 0) as [|NF]; [discriminate|]. intros E. injection E as E1 E2.
  assert (HW : 0 <= W) by (destruct (Rle_lt_dec 0 W) as [L|L]; auto; rewrite (C36_gain c W ki true P L) in Ekf; discriminate).
  assert (He0 : 0 <= f_ei I) by exact (wave_fin c _ _ P Eki).
  (* the flight *)
  unfold prepare in EW. destruct (all_fin ps) as [qs|] eqn:EF; [|discriminate].
  destruct qs as [|tp [|tm [|td [|lpm [|lms [|lsd [|slpm [|slms [|slsd [|sti [|sfi [|st [|sf [|]]]]]]]]]]]]]]; try discriminate.
  destruct (vel (values_of c (f_ei I))) as [vi| |] eqn:Evi; try discriminate. destruct (vel Ef) as [vf| |] eqn:Evf; try discriminate.
  destruct (angles _ _ _ Q _) as [[t f]|] eqn:EAn; [|discriminate].
  unfold nonzero in EW.
  destruct (Req_EM_T lpm 0) as [|Nlpm]; [discriminate|]. destruct (Req_EM_T lsd 0) as [|Nlsd]; [discriminate|].
  destruct (Req_EM_T vi 0) as [|Nvi]; [discriminate|]. destruct (Req_EM_T vf 0) as [|Nvf]; [discriminate|]. cbn [andb] in EW.
  assert (Ncf : sph = false -> cos f <> 0). { intros ->. cbn [orb] in EW. destruct (Req_EM_T (cos f) 0); [discriminate|assumption]. }
  destruct (orb sph _); [|discriminate]. apply Some_inj in EW.
  unfold angles in EAn. destruct (wavelen (values_of c (f_ei I))) as [lam| |] eqn:El; try discriminate.
  assert (He : 0 < f_ei I). { destruct (Rle_lt_or_eq_dec _ _ He0) as [L|L]; auto. rewrite <- L in El. unfold values_of in El. cbn [wavelen] in El. destruct (Req_EM_T 0 0); [discriminate|congruence]. }
  destruct (wave_pos c _ P He) as (ki' & lam' & K1 & K2 & Pki & Plam & LK & KE). rewrite Eki in K1. rewrite El in K2. injection K1 as <-. injection K2 as <-.
  destruct (C36_kfree c W ki P HW) as (KF1 & KF2 & _). assert (WL : W <= kinetic c ki). { destruct (Rle_lt_dec W (kinetic c ki)) as [L|L]; auto. rewrite (KF2 L) in Ekf. discriminate. }
  destruct (KF1 WL) as (kf' & H1 & H2 & H3). rewrite Ekf in H1. injection H1 as <-. assert (Pkf : 0 < kf) by lra.
  destruct (final_energy c kf P Pkf) as (_ & EB' & _ & PK). rewrite EB in EB'. injection EB' as ->.
  destruct (speed_fin c _ _ P He Evi) as (Pvi & Ivi). destruct (speed_fin c _ _ P PK Evf) as (Pvf & Ivf).
  destruct (pos (form2 _ Q)) eqn:PQ; [|discriminate]. destruct (pos _) in EAn; [|discriminate].
  unfold get_two_theta in EAn. assert (Gq : lam / 2 / get_d_spacing (s_cell (f_sample I)) Q = get_q (s_cell (f_sample I)) Q / (2 * ki)).
  { unfold get_q. replace lam with (2 * PI / ki) by (rewrite <- LK; field; lra). unfold Rdiv. rewrite (Rinv_mult 2 ki). ring. }
  rewrite Gq in EAn. set (q := get_q (s_cell (f_sample I)) Q) in *.
  destruct (Rle_dec (q / (2 * ki)) 1) as [L1|]; [|discriminate]. destruct (Rle_dec (-1) (q / (2 * ki))) as [L2|]; [|discriminate]. injection EAn as ET EFi.
  assert (Pi := PI_RGT_0).
  assert (Et : t = 2 * asin (q / (2 * ki))). { rewrite <- ET. unfold rad, deg. field. lra. }
  assert (Pq : 0 <= q). { unfold q, get_q, get_d_spacing. set (y := sqrt _). assert (0 <= y) by apply sqrt_pos. unfold Rdiv. rewrite Rmult_1_l, Rinv_inv. assert (0 <= PI * y) by (apply Rmult_le_pos; lra). lra. }
  assert (Bs : 0 <= q / (2 * ki)) by (apply Rmult_le_pos; [lra|left; apply Rinv_0_lt_compat; lra]).
  assert (HT : 0 <= t <= PI).
  { destruct (asin_bound (q / (2 * ki))) as (_ & B2). split; [|lra]. rewrite Et. destruct (Rle_lt_or_eq_dec _ _ Bs) as [L|L].
    - assert (A0 : 0 <= asin (q / (2 * ki))). { destruct (Rle_lt_dec 0 (asin (q / (2 * ki)))) as [|N]; auto. exfalso. assert (Sn : sin (asin (q / (2 * ki))) < 0). { destruct (asin_bound (q / (2 * ki))). apply sin_lt_0_var; lra. } rewrite sin_asin in Sn by lra. lra. } lra.
    - rewrite <- L, asin_0. lra. }
  assert (HS : 2 * ki * sin (t / 2) = q). { replace (t / 2) with (asin (q / (2 * ki))) by (rewrite Et; field). rewrite sin_asin by lra. field. lra. }
  assert (HA : - PI <= a <= 0 /\ kf ^ 2 = ki ^ 2 + q ^ 2 - 2 * ki * q * cos a).
  { destruct (Rle_lt_or_eq_dec _ _ Pq) as [L|L].
    - destruct (C36_angle ki kf q (-1) Pki (Rlt_le _ _ Pkf) L ltac:(lra)) as (A1 & A2).
      assert (T : Rabs (ki - q) <= kf <= ki + q) by (apply NNPP; intros N; rewrite (A2 N) in EA; discriminate).
      destruct (A1 T) as (a' & G1 & G2 & G3 & G4 & _). rewrite EA in G1. injection G1 as <-. split; [|exact G2]. assert (G5 := Rle_abs (- a)). rewrite Rabs_Ropp in G5. lra.
    - exfalso. (* a point of zero length is refused *) unfold pos in PQ. destruct (Rlt_dec 0 (form2 (s_cell (f_sample I)) Q)) as [PP|]; [|discriminate].
      unfold q, get_q, get_d_spacing in L. set (z := dot Q _) in L. assert (Z : z = form2 (s_cell (f_sample I)) Q / (4 * PI ^ 2)).
      { unfold z, form2. destruct (Gstar (s_cell (f_sample I))) as [a1 a2 a3 a4 a5 a6 a7 a8 a9]. destruct Q as [x y z']. unfold dot, mv, mscal. cbn [vx vy vz m11 m12 m13 m21 m22 m23 m31 m32 m33]. field. lra. }
      assert (Pz : 0 < z) by (rewrite Z; apply Rdiv_lt_0_compat; [exact PP|assert (0 < PI ^ 2) by (apply pow_lt; lra); lra]).
      assert (Sz := sqrt_lt_R0 z Pz). unfold Rdiv in L. rewrite Rmult_1_l, Rinv_inv in L. assert (0 < 2 * PI * sqrt z) by (apply Rmult_lt_0_compat; lra). lra. }
  assert (Rg : regular w) by (rewrite <- EW; unfold regular; cbn [w_vi w_vf w_lpm w_lsd w_sph w_f]; repeat split; auto).
  assert (PD : posdef 4 (covariance k w)). { split; [apply cov_symm|]. intros x Nx. destruct (Rle_lt_or_eq_dec _ _ (cov_nonneg k w x)) as [L|L]; auto. exfalso.
    assert (X : minv 4 (covariance k w) = None) by (apply (singular_iff 4 _ (cov_symm k w) (cov_nonneg k w)); exists x; auto). congruence. }
  destruct (minv_posdef 4 _ PD) as (N & EN & IN & PN). rewrite EM in EN. injection EN as <-.
  destruct (rot4_orth a) as (O1 & O2).
  assert (PM : posdef 4 m). { rewrite <- E2. change (posdef 4 (mul 4 (tr (rot4 a)) (mul 4 reso (tr (tr (rot4 a)))))). apply posdef_congr; [exact PN|].
    intros x Hx i Hi. assert (Y := fun j Hj => Hx j Hj). change (tr (tr (rot4 a))) with (rot4 a) in Y.
    rewrite <- (sum_delta 4 i x Hi). change (mulv 4 idm x i = 0). rewrite <- (mulv_ext 4 4 _ _ x x i Hi O2 (fun _ _ => eq_refl)). rewrite mulv_mul. unfold mulv at 1. apply sum_zero. intros j Hj. rewrite (Y j Hj). ring. }
  assert (FQ : fwhm m (point4 Q W) = qf 4 m (point4 Q W)) by (unfold fwhm, qf; apply sum_ext; intros i _; apply sum_ext; intros j _; ring).
  rewrite E2 in NF, E1. assert (PF : 0 < fwhm m (point4 Q W)) by (assert (X := posdef_nonneg 4 m (point4 Q W) PM); lra).
  assert (Ln : 0 < ln 2) by (assert (X := ln_lt_2); lra).
  exists tp, tm, td, lpm, lms, lsd, slpm, slms, slsd, sti, sfi, st, sf, sph, vi, vf, ki, kf, t, f, a.
  split. { f_equal. clear - EF. revert EF. generalize [tp; tm; td; lpm; lms; lsd; slpm; slms; slsd; sti; sfi; st; sf]. induction ps as [|[x| |] r IH]; intros l; cbn [all_fin]; try discriminate; [intros H; injection H as <-; reflexivity|].
    destruct (all_fin r) as [y|]; [|discriminate]. intros H. injection H as <-. cbn [map]. f_equal. apply IH. reflexivity. }
  split; [reflexivity|]. split; [split; [exact Pvi|exact Ivi]|]. split; [split; [exact Pvf|rewrite Ivf; lra]|]. split; [split; [exact Pki|exact KE]|]. split; [split; [exact Pkf|lra]|].
  split; [split; [exact HT|exact HS]|]. split; [symmetry; exact EFi|]. split; [exact HA|]. split.
  - intros D HD. set (variance := [tp ^ 2 + tm ^ 2; tm ^ 2 + td ^ 2; slpm ^ 2; slms ^ 2; slsd ^ 2; sti ^ 2; sfi ^ 2; st ^ 2; sf ^ 2]). rewrite <- E2.
    assert (IV := inverse_rot 4 (rot4 a) _ _ O1 O2 IN).
    assert (EqC : eqm 4 4 (covariance k w) (fun i j => sum 9 (fun p => nth p variance 0 * D i p * D j p))).
    { intros i j Hi Hj. rewrite cov_entry. apply sum_ext. intros p Hp.
      assert (JD : forall i, (i < 4)%nat -> jacobi k w i p = D i p).
      { intros i' Hi'. assert (J1 := C44_jacobian k w i' p Kh Ke Rg Hi' Hp). assert (J2 := HD i' p Hi' Hp).
        apply is_derive_unique in J1.
        assert (J3 : is_derive (fun s => observed k (w_sph w) (upd (numbers w) p s) i') (numbers w p) (D i' p)).
        { rewrite <- EW. exact J2. }
        apply is_derive_unique in J3. rewrite <- J1, <- J3. reflexivity. }
      rewrite (JD i Hi), (JD j Hj). f_equal. f_equal. rewrite <- EW. cbn [w_sig]. unfold variance.
      assert (SQ : forall u v, sqrt (u ^ 2 + v ^ 2) ^ 2 = u ^ 2 + v ^ 2) by (intros u v; rewrite <- Rsqr_pow2; apply Rsqr_sqrt; assert (A1 := pow2_ge_0 u); assert (A2 := pow2_ge_0 v); lra).
      assert (Cp : (p = 0 \/ p = 1 \/ p = 2 \/ p = 3 \/ p = 4 \/ p = 5 \/ p = 6 \/ p = 7 \/ p = 8)%nat) by lia.
      destruct Cp as [->|[->|[->|[->|[->|[->|[->|[->| ->]]]]]]]]; cbn [nth]; rewrite ?SQ; reflexivity. }
    destruct IV as (V1 & V2). split.
    + eapply eqm_trans; [|exact V1]. apply mul_ext; [|apply eqm_refl]. apply mul_ext; [apply eqm_refl|]. apply mul_ext; [apply eqm_sym; exact EqC|apply eqm_refl].
    + eapply eqm_trans; [|exact V2]. apply mul_ext; [apply eqm_refl|]. apply mul_ext; [apply eqm_refl|]. apply mul_ext; [apply eqm_sym; exact EqC|apply eqm_refl].
  - split; [exact PM|]. split; [rewrite <- E1; apply Rdiv_lt_0_compat; lra|]. rewrite <- E1, FQ. rewrite FQ in PF. set (z := qf 4 m (point4 Q W)) in *. field. lra.
Qed.
Print Assumptions C44_covariance.

(** ** When there is a matrix *)
(** A point with a flight: all thirteen parameters are numbers, the flight paths and speeds are not zero and the momentum transfer
    is at most twice the initial wavevector. *)
Definition flown (c : consts) (I : tof) (Q : v3) (W : R) (l : list R) (sph : bool) (vi vf ki kf t f : R) : Prop :=
  parameters c I = Ok (map Fin l) /\ List.length l = 13%nat /\ nth 3 l 0 <> 0 /\ nth 5 l 0 <> 0 /\ spherical (f_detector I) = Ok sph /\
  (0 < vi /\ c_m c * vi ^ 2 / 2 * c_J c = f_ei I) /\ (0 < vf /\ c_m c * vf ^ 2 / 2 * c_J c = f_ei I - W) /\
  (0 < ki /\ kinetic c ki = f_ei I) /\ (0 < kf /\ kinetic c kf = f_ei I - W) /\ 0 <= W /\
  0 < get_q (s_cell (f_sample I)) Q /\ 0 < get_q (s_cell (f_sample I)) (cross (s_u (f_sample I)) (s_v (f_sample I))) /\
  (0 <= t <= PI /\ 2 * ki * sin (t / 2) = get_q (s_cell (f_sample I)) Q) /\
  f = PI / 2 - rad (get_phi (s_cell (f_sample I)) (s_u (f_sample I)) (s_v (f_sample I)) Q) /\ (sph = false -> cos f <> 0).
(** And one that can be reached: the momentum transfer closes the triangle of the two wavevectors. *)
Definition reached (c : consts) (I : tof) (Q : v3) (W : R) (l : list R) (sph : bool) (vi vf ki kf t f : R) : Prop :=
  flown c I Q W l sph vi vf ki kf t f /\ Rabs (ki - kf) <= get_q (s_cell (f_sample I)) Q <= ki + kf.
Definition nine (I : tof) (l : list R) (vi vf t f : R) : vec := fun p =>
  nth p [nth 3 l 0 / vi; nth 4 l 0 / vi + nth 5 l 0 / vf; nth 3 l 0; nth 4 l 0; nth 5 l 0; rad (f_theta_i I); rad (f_phi_i I); t; f] 0.
Definition variances (l : list R) : list R :=
  [nth 0 l 0 ^ 2 + nth 1 l 0 ^ 2; nth 1 l 0 ^ 2 + nth 2 l 0 ^ 2; nth 6 l 0 ^ 2; nth 7 l 0 ^ 2; nth 8 l 0 ^ 2; nth 9 l 0 ^ 2; nth 10 l 0 ^ 2; nth 11 l 0 ^ 2; nth 12 l 0 ^ 2].

Lemma kinetic_inj c a b : physical c -> 0 <= a -> 0 <= b -> kinetic c a = kinetic c b -> a = b.
Proof. intros P A B E. rewrite !kinetic_sq in E. assert (U := unit_pos c P). apply Rmult_eq_reg_l in E; [|lra]. nra. Qed.
Lemma speed_inj c a b : physical c -> 0 <= a -> 0 <= b -> c_m c * a ^ 2 / 2 * c_J c = c_m c * b ^ 2 / 2 * c_J c -> a = b.
Proof.
  intros (_ & _ & Hm & HJ & _) A B E. assert (X : a ^ 2 = b ^ 2). { apply Rmult_eq_reg_r in E; [|lra]. apply (Rmult_eq_reg_l (c_m c / 2)); [lra|lra]. } nra.
Qed.
Lemma speed_is c e v : physical c -> 0 < e -> 0 < v -> c_m c * v ^ 2 / 2 * c_J c = e -> vel (values_of c e) = Fin v.
Proof.
  intros P He Hv E. destruct (C17_relations c QEnergy e (values_of c e) P He eq_refl) as (_ & _ & v' & _ & _ & Hv' & _). destruct (speed_fin c e v' P He Hv') as (A & B).
  rewrite Hv'. f_equal. apply (speed_inj c); auto; lra.
Qed.
Lemma q_form l Q : 0 < get_q l Q -> 0 < form2 l Q.
Proof.
  assert (Pi := PI_RGT_0). assert (P2 : 0 < PI ^ 2) by (apply pow_lt; lra). unfold get_q, get_d_spacing. set (z := dot Q _). intros H. assert (Z : z = form2 l Q / (4 * PI ^ 2)).
  { unfold z, form2. destruct (Gstar l) as [a1 a2 a3 a4 a5 a6 a7 a8 a9]. destruct Q as [x y z']. unfold dot, mv, mscal. cbn [vx vy vz m11 m12 m13 m21 m22 m23 m31 m32 m33]. field. lra. }
  destruct (Rlt_le_dec 0 z) as [L|L]. { rewrite Z in L. apply (Rmult_lt_compat_r (4 * PI ^ 2)) in L; [|lra]. replace (form2 l Q / (4 * PI ^ 2) * (4 * PI ^ 2)) with (form2 l Q) in L by (field; lra). lra. }
  rewrite sqrt_neg_0 in H by exact L. unfold Rdiv in H. rewrite Rinv_0, Rmult_0_r, Rinv_0, Rmult_0_r in H. lra.
Qed.

Lemma flown_flight c I Q W l sph vi vf ki kf t f : physical c -> flown c I Q W l sph vi vf ki kf t f ->
  exists w, regular w /\ numbers w = nine I l vi vf t f /\ w_sph w = sph /\ map (fun s => s ^ 2) (w_sig w) = variances l /\
    (w_vi w = vi /\ w_vf w = vf /\ w_lpm w = nth 3 l 0 /\ w_lms w = nth 4 l 0 /\ w_lsd w = nth 5 l 0 /\ w_ti w = rad (f_theta_i I) /\ w_fi w = rad (f_phi_i I) /\ w_t w = t /\ w_f w = f) /\
    forall k, calc_in_Q c k I Q W = match minv 4 (covariance k w) with None => Singular | Some reso =>
      match angle_ki_Q ki kf (get_q (s_cell (f_sample I)) Q) (-1) false with
      | Err e => Raised e
      | Ok a => let m := mul 4 (tr (rot4 a)) (mul 4 reso (rot4 a)) in let F := fwhm m (point4 Q W) in if Req_EM_T F 0 then Nans else Numbers (2 * ln 2 / F) m
      end end.
Proof.
  intros P (EP & Len & N3 & N5 & ES & (Pvi & Ivi) & (Pvf & Ivf) & (Pki & Iki) & (Pkf & Ikf) & HW & Pq & Pc & (Ht & HS) & Ef & Ncf).
  destruct l as [|tp [|tm [|td [|lpm [|lms [|lsd [|slpm [|slms [|slsd [|sti [|sfi [|st [|sf [|]]]]]]]]]]]]]]; try discriminate Len. clear Len. cbn [nth] in N3, N5.
  assert (U := unit_pos c P). assert (Pi := PI_RGT_0). assert (He : 0 < f_ei I) by (rewrite <- Iki, kinetic_sq; apply Rmult_lt_0_compat; [exact U|apply pow_lt; exact Pki]).
  assert (He' : 0 < f_ei I - W) by (rewrite <- Ikf, kinetic_sq; apply Rmult_lt_0_compat; [exact U|apply pow_lt; exact Pkf]).
  destruct (wave_pos c _ P He) as (ki' & lam & K1 & K2 & Pki' & Plam & LK & KE). assert (ki' = ki) by (apply (kinetic_inj c); auto; lra). subst ki'.
  destruct (C36_kfree c W ki P HW) as (KF1 & _ & _). destruct (KF1 ltac:(lra)) as (kf' & H1 & H2 & H3). assert (kf' = kf) by (apply (kinetic_inj c); auto; lra). subst kf'.
  destruct (final_energy c kf P Pkf) as (_ & EB & _ & PK). set (q := get_q (s_cell (f_sample I)) Q) in *.
  exists (mkF vi vf lpm lms lsd (rad (f_theta_i I)) (rad (f_phi_i I)) t f sph [sqrt (tp ^ 2 + tm ^ 2); sqrt (tm ^ 2 + td ^ 2); slpm; slms; slsd; sti; sfi; st; sf]).
  split. { unfold regular. cbn [w_vi w_vf w_lpm w_lsd w_sph w_f]. repeat split; auto; lra. }
  split; [reflexivity|]. split; [reflexivity|].
  assert (SQ : forall u v, sqrt (u ^ 2 + v ^ 2) ^ 2 = u ^ 2 + v ^ 2) by (intros u v; rewrite <- Rsqr_pow2; apply Rsqr_sqrt; assert (B1 := pow2_ge_0 u); assert (B2 := pow2_ge_0 v); lra).
  split. { unfold variances. cbn [w_sig map nth]. rewrite !SQ. reflexivity. }
  split; [cbn [w_vi w_vf w_lpm w_lms w_lsd w_ti w_fi w_t w_f nth]; repeat split; reflexivity|].
  assert (EPr : prepare I Q (map Fin [tp; tm; td; lpm; lms; lsd; slpm; slms; slsd; sti; sfi; st; sf]) (values_of c (f_ei I)) (values_of c (kinetic c kf)) sph =
    Some (mkF vi vf lpm lms lsd (rad (f_theta_i I)) (rad (f_phi_i I)) t f sph [sqrt (tp ^ 2 + tm ^ 2); sqrt (tm ^ 2 + td ^ 2); slpm; slms; slsd; sti; sfi; st; sf])).
  { unfold prepare. cbn [map all_fin]. rewrite (speed_is c _ vi P He Pvi Ivi), (speed_is c _ vf P PK Pvf) by lra.
    assert (EAn : angles (s_cell (f_sample I)) (s_u (f_sample I)) (s_v (f_sample I)) Q (wavelen (values_of c (f_ei I))) = Some (t, f)).
    { unfold angles. rewrite K2. unfold pos. destruct (Rlt_dec 0 (form2 (s_cell (f_sample I)) Q)) as [_|N]; [|exfalso; apply N, q_form; exact Pq].
      destruct (Rlt_dec 0 (form2 (s_cell (f_sample I)) (cross (s_u (f_sample I)) (s_v (f_sample I))))) as [_|N]; [|exfalso; apply N, q_form; exact Pc].
      unfold get_two_theta. assert (Gq : lam / 2 / get_d_spacing (s_cell (f_sample I)) Q = sin (t / 2)).
      { apply (Rmult_eq_reg_l (2 * ki)); [|lra]. rewrite HS. unfold q, get_q. replace (2 * PI) with (lam * ki) by exact LK. unfold Rdiv. field_simplify; [reflexivity| |];
        intros Z; unfold q, get_q in Pq; rewrite Z in Pq; unfold Rdiv in Pq; rewrite Rinv_0, Rmult_0_r in Pq; lra. }
      rewrite Gq. destruct (SIN_bound (t / 2)) as (S1 & S2). destruct (Rle_dec (sin (t / 2)) 1); [|lra]. destruct (Rle_dec (-1) (sin (t / 2))); [|lra].
      f_equal. f_equal; [|symmetry; exact Ef]. rewrite asin_sin by lra. unfold rad, deg. field. lra. }
    rewrite EAn. unfold nonzero. destruct (Req_EM_T lpm 0); [contradiction|]. destruct (Req_EM_T lsd 0); [contradiction|]. destruct (Req_EM_T vi 0); [lra|]. destruct (Req_EM_T vf 0); [lra|].
    cbn [andb]. destruct sph; [reflexivity|]. cbn [orb]. destruct (Req_EM_T (cos f) 0) as [Z|_]; [exfalso; exact (Ncf eq_refl Z)|reflexivity]. }
  intros k. unfold calc_in_Q. rewrite EP. cbv zeta. rewrite K1, H1, ES. destruct (Req_EM_T kf 0); [lra|]. rewrite EB, EPr. reflexivity.
Qed.

Lemma reached_angle c I Q W l sph vi vf ki kf t f : reached c I Q W l sph vi vf ki kf t f -> exists a, angle_ki_Q ki kf (get_q (s_cell (f_sample I)) Q) (-1) false = Ok a.
Proof.
  intros ((_ & _ & _ & _ & _ & _ & _ & (Pki & _) & (Pkf & _) & _ & Pq & _) & Tri). set (q := get_q (s_cell (f_sample I)) Q) in *.
  destruct (C36_angle ki kf q (-1) Pki (Rlt_le _ _ Pkf) Pq ltac:(lra)) as (A1 & _).
  assert (Tri' : Rabs (ki - q) <= kf <= ki + q). { destruct Tri as (T1 & T2). assert (X := Rle_abs (ki - kf)). assert (Y := Rle_abs (- (ki - kf))). rewrite Rabs_Ropp in Y. split; [apply Rabs_le; lra|lra]. }
  destruct (A1 Tri') as (a & EA & _). exists a. exact EA.
Qed.

(** Either some combination of the four components does not change, to first order, with any uncertain number of the flight, and
    numpy's inversion fails; or there is a matrix. *)
Theorem C44_outcome c k I Q W l sph vi vf ki kf t f D : physical c -> k_hbar k <> 0 -> k_e k <> 0 -> reached c I Q W l sph vi vf ki kf t f ->
  (forall i p, (i < 4)%nat -> (p < 9)%nat -> is_derive (fun s => observed k sph (upd (nine I l vi vf t f) p s) i) (nine I l vi vf t f p) (D i p)) ->
  let blind x := nzv 4 x /\ forall p, (p < 9)%nat -> nth p (variances l) 0 <> 0 -> sum 4 (fun i => x i * D i p) = 0 in
  ((exists x, blind x) -> calc_in_Q c k I Q W = Singular) /\
  (~ (exists x, blind x) -> exists r0 m, calc_in_Q c k I Q W = Numbers r0 m).
Proof.
  intros P Kh Ke Re HD. cbv zeta. destruct (flown_flight _ _ _ _ _ _ _ _ _ _ _ _ P (proj1 Re)) as (w & Rg & Nw & Sw & Vw & _ & EC). destruct (reached_angle _ _ _ _ _ _ _ _ _ _ _ _ Re) as (a & EA). rewrite EC, EA. clear EC EA.
  assert (JD : forall i p, (i < 4)%nat -> (p < 9)%nat -> jacobi k w i p = D i p).
  { intros i p Hi Hp. assert (J1 := C44_jacobian k w i p Kh Ke Rg Hi Hp). assert (J2 := HD i p Hi Hp). rewrite Nw, Sw in J1.
    apply is_derive_unique in J1. apply is_derive_unique in J2. rewrite <- J1, <- J2. reflexivity. }
  assert (B : (exists x, nzv 4 x /\ forall p, (p < 9)%nat -> nth p (variances l) 0 <> 0 -> sum 4 (fun i => x i * D i p) = 0) <-> minv 4 (covariance k w) = None).
  { rewrite cov_singular. assert (S4 : forall x p, (p < 9)%nat -> mulv 4 (tr (jacobi k w)) x p = sum 4 (fun i => x i * D i p)).
    { intros x p Hp. unfold mulv, tr. apply sum_ext. intros i Hi. rewrite (JD i p Hi Hp). ring. }
    split; intros (x & Nx & H); exists x; (split; [exact Nx|]); intros p Hp.
    - rewrite (S4 x p Hp). destruct (Req_dec (nth p (w_sig w) 0) 0) as [Z|Z]; [rewrite Z; ring|]. rewrite (H p Hp); [ring|]. rewrite <- Vw, nth_sq. apply pow_nonzero. exact Z.
    - intros NV. specialize (H p Hp). rewrite (S4 x p Hp) in H. apply Rmult_integral in H. destruct H as [Z|Z]; [|exact Z]. exfalso. apply NV. rewrite <- Vw, nth_sq, Z. ring. }
  split; intros H; [rewrite (proj1 B H); reflexivity|].
  destruct (minv 4 (covariance k w)) as [reso|] eqn:EM; [|exfalso; apply H, B; reflexivity].
  cbv zeta. set (m := mul 4 (tr (rot4 a)) (mul 4 reso (rot4 a))).
  assert (PD : posdef 4 (covariance k w)). { split; [apply cov_symm|]. intros x Nx. destruct (Rle_lt_or_eq_dec _ _ (cov_nonneg k w x)) as [L|L]; auto. exfalso.
    assert (X : minv 4 (covariance k w) = None) by (apply (singular_iff 4 _ (cov_symm k w) (cov_nonneg k w)); exists x; auto). congruence. }
  destruct (minv_posdef 4 _ PD) as (N & EN & IN & PN). rewrite EM in EN. injection EN as <-. destruct (rot4_orth a) as (O1 & O2).
  assert (PM : posdef 4 m). { unfold m. change (posdef 4 (mul 4 (tr (rot4 a)) (mul 4 reso (tr (tr (rot4 a)))))). apply posdef_congr; [exact PN|].
    intros x Hx i Hi. assert (Y := fun j Hj => Hx j Hj). change (tr (tr (rot4 a))) with (rot4 a) in Y.
    rewrite <- (sum_delta 4 i x Hi). change (mulv 4 idm x i = 0). rewrite <- (mulv_ext 4 4 _ _ x x i Hi O2 (fun _ _ => eq_refl)). rewrite mulv_mul. unfold mulv at 1. apply sum_zero. intros j Hj. rewrite (Y j Hj). ring. }
  assert (FQ : fwhm m (point4 Q W) = qf 4 m (point4 Q W)) by (unfold fwhm, qf; apply sum_ext; intros i _; apply sum_ext; intros j _; ring).
  destruct (Req_EM_T (fwhm m (point4 Q W)) 0) as [Z|_]; [|eexists; eexists; reflexivity]. exfalso. rewrite FQ in Z.
  destruct (nzv_dec 4 (point4 Q W)) as [Nz|Az]; [assert (X := proj2 PM _ Nz); lra|].
  destruct Re as ((_ & _ & _ & _ & _ & _ & _ & _ & _ & _ & Pq & _) & _). apply q_form in Pq.
  assert (Q = V 0 0 0). { destruct Q as [x y z]. assert (X0 := Az 0%nat ltac:(lia)). assert (X1 := Az 1%nat ltac:(lia)). assert (X2 := Az 2%nat ltac:(lia)). unfold point4 in *. cbn [nth vx vy vz] in *. subst. reflexivity. }
  subst Q. unfold form2, dot, mv in Pq. cbn [vx vy vz] in Pq. lra.
Qed.
Print Assumptions C44_outcome.

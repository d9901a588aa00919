(** C40: points calculated together and one at a time. *)
From Coq Require Import String List ZArith Reals Lra Lia Psatz Bool FunctionalExtensionality.
From Verif Require Import Base MatInv TasModel TasProof TasCase TasRaysProps HistProof.
Import ListNotations.
Local Open Scope R_scope.

(** * Several points in one call *)
(** The first of several points is calculated as if alone; the others as with the instrument [after]: guides are replaced by the
    divergence they have at the first point, and the radii are multiplied by the senses of the crystals. *)
Theorem C40_split t q w l : 0 < fst (energies t w) ->
  calc_in_Q t ((q, w) :: l) = bind (calc_in_Q t [(q, w)]) (fun a => bind (calc_in_Q (after t w) l) (fun b => Ok (a ++ b))).
Proof.
  intros E. unfold calc_in_Q. change (lengths (after t w)) with (lengths t). destruct (lengths t) as [Ls|e]; cbn [bind]; auto. cbn [loop].
  destruct (point t Ls (start t) 0 q w) as [[v x]|e] eqn:P; cbn [bind]; auto. rewrite (point_next _ _ _ _ _ _ _ _ E P), start_after, loop_after. destruct (loop _ _ _ _ l); reflexivity.
Qed.
Print Assumptions C40_split.
Example C40_split_ex : let t := case 1 (Some (MNum 1)) None None None in 0 < fst (energies t 5) /\ t_hcol t 0%nat = -2.
Proof. cbv zeta. split; auto. unfold energies. cbn [case t_infin opt t_efixed]. destruct (Rlt_dec 0 (-1)); cbn [fst]; lra. Qed.

(** Without guides, and either by Cooper and Nathans or with crystals of sense 1, points are independent of each other. *)
Theorem C40_independent t l : l <> [] -> Forall (fun p => 0 < fst (energies t (snd p))) l ->
  (forall i, (i < 4)%nat -> 0 <= t_hcol t i /\ 0 <= t_vcol t i) ->
  (if popovici t then x_dir (t_mono t) = 1 /\ x_dir (t_ana t) = 1 else x_dir (t_mono t) <> 0 /\ x_dir (t_ana t) <> 0) ->
  (s_width t <> None /\ s_depth t <> None /\ s_height t <> None \/ match s_shape t with Some (S3 _) => False | _ => True end) ->
  calc_in_Q t l = bind (map_res (fun p => calc_in_Q t [p]) l) (fun ll => Ok (List.concat ll)).
Proof.
  intros N F A B C. assert (S : steady t) by (split; auto). unfold calc_in_Q. destruct (lengths t) as [Ls|e]; cbn [bind]; [|destruct l; [congruence|reflexivity]]. clear N.
  induction F as [|[q w] l E F IH]; cbn [loop map_res bind]; auto. destruct (point t Ls (start t) 0 q w) as [[v x]|e] eqn:P; cbn [bind]; auto.
  cbn [snd] in E. rewrite (point_next _ _ _ _ _ _ _ _ E P). rewrite (sim_loop t Ls l _ (start t) 1 0 (fun n => steady_sshapes t _ _ S) (steady_next t w S)), IH.
  destruct (map_res _ l) as [ll|e]; cbn [bind]; reflexivity.
Qed.
Print Assumptions C40_independent.
Definition plain (m : option method) (s : R) : tas :=
  mkTas m None (fun _ => 60) (fun _ => 600) (mkX 3 30 None s None None None (Some (1 / 2)) None) (mkX 3 30 None s None (Some (1 / 1000)) None None None)
    None None None (2072 / 1000 * 9) (Some [1; 1; 1; 1]) None (Some (mkW None (Some (1 / 1000)))) None None 1 None None None (Some (1 / 1000)) (Some (1 / 1000)) (Some (1 / 1000)) None.
Lemma plain_energies m s w : energies (plain m s) w = (2072 / 1000 * 9 + w, 2072 / 1000 * 9).
Proof. unfold energies. cbn [plain t_infin opt t_efixed]. destruct (Rlt_dec 0 (-1)); [lra|reflexivity]. Qed.
Lemma plain_k m s : kin (plain m s) 0 = 3 /\ kfin (plain m s) 0 = 3.
Proof.
  unfold kin, kfin. rewrite plain_energies. cbn [fst snd]. unfold CONVERT2. rewrite Rplus_0_r. replace (2072 / 1000 * 9 / (2072 / 1000)) with (3 * 3) by field. split; apply sqrt_square; lra.
Qed.
Example C40_independent_ex : let t := plain None (-1) in
  Forall (fun p => 0 < fst (energies t (snd p))) [(3, 0); (2, 1)] /\ (forall i, (i < 4)%nat -> 0 <= t_hcol t i /\ 0 <= t_vcol t i) /\
  (if popovici t then x_dir (t_mono t) = 1 /\ x_dir (t_ana t) = 1 else x_dir (t_mono t) <> 0 /\ x_dir (t_ana t) <> 0) /\ s_width t <> None /\ s_depth t <> None /\ s_height t <> None.
Proof.
  cbv zeta. split; [repeat constructor; rewrite plain_energies; cbn [fst snd]; lra|]. cbn. split; [intros; lra|]. split; [lra|]. repeat split; discriminate.
Qed.

(** * Bent crystals of sense -1 *)
Lemma plain_usable s n : s = 1 \/ s = -1 -> usable (plain (Some (MNum 1)) s) n /\ usable (after (plain (Some (MNum 1)) s) 0) n.
Proof.
  intros S. assert (N : s <> 0) by lra. assert (K := plain_k (Some (MNum 1)) s).
  assert (Co : forall h, 0 < h -> coated 3 h <> 0) by (intros h H; unfold coated; destruct (Rlt_dec h 0); lra).
  split; unfold usable; (split; [intros i L; unfold after; cbn [plain t_hcol t_vcol]; try rewrite (proj1 K); try (split; apply Co; lra); lra|]);
    unfold crystal_ok, window_ok, size_ok, sample_ok; cbn; repeat split; auto; try lra; try lia; try (apply Rmult_integral_contrapositive_currified; lra); try (intros _; split; [lia|repeat constructor; lra]); repeat constructor; lra.
Qed.
Lemma minute_bounds : 1 / 12000 < minute < 1 / 5000.
Proof.
  unfold minute. assert (P1 : 3 < PI) by (assert (Z := PI2_3_2); lra).
  assert (P2 := PI_4). assert (L : / 2 < ln 2 < 1). { split; [apply ln_lt_2|]. rewrite <- (ln_exp 1). apply ln_increasing; [lra|]. assert (X := exp_ineq1 1). lra. }
  assert (S1 : 2 < sqrt (8 * ln 2)). { apply Rsqr_incrst_0; [rewrite Rsqr_sqrt by lra; unfold Rsqr; lra|lra|apply sqrt_pos]. }
  assert (S2 : sqrt (8 * ln 2) < 3). { apply Rsqr_incrst_0; [rewrite Rsqr_sqrt by lra; unfold Rsqr; lra|apply sqrt_pos|lra]. }
  set (s := sqrt (8 * ln 2)) in *. assert (E : PI / (180 * 60) / s * s = PI / 10800) by (field; lra). set (x := PI / (180 * 60) / s) in *.
  assert (X : 0 < x) by (apply Rmult_lt_reg_r with s; lra). split; nra.
Qed.
Definition up : vec := fun i => if Nat.eqb i 2 then 1 else 0.
(** The vertical spread of an instrument like [plain], and rays. *)
Lemma plain_ray t : usable t 1 -> reachable t (3, 0) -> t_method t = Some (MNum 1) -> t_arms t = Some [1; 1; 1; 1] -> t_horifoc t = None -> kin t 0 = 3 -> kfin t 0 = 3 ->
  s_width t = Some (1 / 1000) -> s_depth t = Some (1 / 1000) -> s_height t = Some (1 / 1000) -> s_type t = None -> s_mosaic t = None ->
  exists r M C, calc_in_Q t [(3, 0)] = Ok [Some (r, M)] /\ inverse 4 C M /\ exists thm tha a psi, thm = theta (t_mono t) 3 /\ tha = theta (t_ana t) 3 /\
  let weight x :=
    let y := angles 1 1 1 1 thm tha (a / 2) x in
    collimation 3 t y +
    spread (x_mosaic (t_mono t)) (opt (x_mosaic (t_mono t)) (x_vmosaic (t_mono t))) (x_mosaic (t_ana t)) (opt (x_mosaic (t_ana t)) (x_vmosaic (t_ana t)))
      (bent_h y 0 - x 3%nat / (opt (10 ^ 6) (x_rh (t_mono t)) * x_dir (t_mono t))) (bent_v thm y 2 - x 4%nat / (opt (10 ^ 6) (x_rv (t_mono t)) * x_dir (t_mono t)))
      (bent_h y 4 - x 9%nat / (opt (10 ^ 6) (x_rh (t_ana t)) * x_dir (t_ana t))) (bent_v tha y 6 - x 10%nat / (opt (10 ^ 6) (x_rv (t_ana t)) * x_dir (t_ana t))) +
    positions t (diag [12000000; 12000000; 12000000]) psi x in
  (forall x, 6 * (x 7%nat - x 4%nat) - 6 * (x 10%nat - x 7%nat) - weight x <= qf 4 C up) /\
  exists x, 6 * (x 7%nat - x 4%nat) - 6 * (x 10%nat - x 7%nat) - weight x = qf 4 C up.
Proof.
  intros U Re Me Ar Hf Ki Kf Sw Sd Sh St Sm. assert (G : good_geom (geom_of t 3 0)) by (now apply geom_ok with 1%nat).
  assert (P : popovici t = true) by (unfold popovici, meth; rewrite Me; reflexivity).
  assert (Ih : inverse 3 (diag [1 / 12000000; 1 / 12000000; 1 / 12000000]) (diag [12000000; 12000000; 12000000])).
  { split; intros i j Li Lj; unfold mul, diag, idm; do 3 (destruct i as [|i]; [do 3 (destruct j as [|j]; [cbn [sum nth Nat.eqb]; lra|]); lia|]); lia. }
  assert (Ex : extent t (diag [1 / 12000000; 1 / 12000000; 1 / 12000000])).
  { unfold extent. rewrite Sw, Sd, Sh, St. cbv zeta. intros i j Li Lj. unfold mx, diag. do 3 (destruct i as [|i]; [do 3 (destruct j as [|j]; [cbn [nth Nat.eqb]; lra|]); lia|]). lia. }
  assert (Ds : distances t 1 1 1 1) by (left; exists []; split; auto).
  assert (Ph : is_phi (kin t 0) (kfin t 0) (twotheta t 3 0) (g_phi (geom_of t 3 0))).
  { exists 3. split; [lra|]. split; [exact (gg_cos _ G)|]. transitivity (- kfin t 0 * sin (twotheta t 3 0)); [exact (gg_sin _ G)|ring]. }
  destruct (C61_popovici t 3 0 (Bm (geom_of t 3 0)) 1 1 1 1 _ _ _ U Re P ltac:(unfold horifoc; rewrite Hf; lia) Ds Ex Ih Ph (jac_B _ G)) as (r & M & C & E & I & H).
  exists r, M, C. split; auto. split; auto. rewrite Ki, Kf in H. exists (theta (t_mono t) 3), (theta (t_ana t) 3), (twotheta t 3 0), (twotheta t 3 0 / 2 - g_phi (geom_of t 3 0)). split; [reflexivity|]. split; [reflexivity|]. cbv zeta. specialize (H up). cbv zeta in H. destruct H as [H1 H2].
  assert (Hm : is_num (meth t) 1 = true) by (unfold meth; rewrite Me; reflexivity). rewrite Hm in H1, H2. clear Hm. unfold sample_spread in H1, H2. rewrite Sm in H1, H2.
  assert (D : forall x, 2 * dotv 4 up (mulv 6 (Bm (geom_of t 3 0)) (deviation 3 3 (theta (t_mono t) 3) (theta (t_ana t) 3) (angles 1 1 1 1 (theta (t_mono t) 3) (theta (t_ana t) 3) (twotheta t 3 0 / 2) x)))
    = 6 * (x 7%nat - x 4%nat) - 6 * (x 10%nat - x 7%nat)).
  { intros x. match goal with |- 2 * dotv 4 up (mulv 6 _ ?d) = _ => transitivity (2 * (d 2%nat - d 5%nat)) end.
    - unfold dotv, mulv, Bm, up. cbv zeta. unfold mx. cbn [sum nth Nat.eqb]. ring.
    - unfold deviation, angles. cbn [nth]. field. }
  split; [intros x; specialize (H1 x); rewrite D in H1; eapply Rle_trans; [|exact H1]; right; ring|].
  destruct H2 as [x H2]. exists x. rewrite <- H2, D. ring.
Qed.

Lemma plain_sin s : s = 1 \/ s = -1 -> sin (asin (3 / (2 * 3)) * s) = s / 2.
Proof.
  intros S. assert (E : sin (asin (3 / (2 * 3))) = 1 / 2) by (rewrite sin_asin; lra). destruct S as [-> | ->]; [rewrite Rmult_1_r, E; lra|].
  replace (asin (3 / (2 * 3)) * -1) with (- asin (3 / (2 * 3))) by ring. rewrite sin_neg, E. lra.
Qed.
Lemma collimation_nonneg k t x : 0 <= collimation k t x.
Proof. unfold collimation. cbv zeta. repeat apply Rplus_le_le_0_compat; apply pow2_ge_0. Qed.
Lemma spread_ge a b c d w x y z : (x / (b * minute)) ^ 2 <= spread a b c d w x y z.
Proof. unfold spread. assert (H := pow2_ge_0 (w / (a * minute))). assert (K := pow2_ge_0 (y / (c * minute))). assert (L := pow2_ge_0 (z / (d * minute))). lra. Qed.
Lemma positions_ge s psi x : 12000000 * (x 1%nat ^ 2 + x 7%nat ^ 2 + x 10%nat ^ 2) <= positions (after (plain (Some (MNum 1)) s) 0) (diag [12000000; 12000000; 12000000]) psi x.
Proof.
  unfold positions. rewrite qf_diag. unfold win, uniform. cbn [plain after resigned t_mono t_ana t_guide t_detector x_depth x_width x_height w_width w_height nth sum].
  assert (H := fun i => pow2_ge_0 (x i)). assert (H0 := H 0%nat). assert (H2 := H 2%nat). assert (H3 := H 3%nat). assert (H4 := H 4%nat). assert (H8 := H 8%nat). assert (H9 := H 9%nat). assert (H11 := H 11%nat). assert (H12 := H 12%nat).
  assert (Ha := pow2_ge_0 (x 5%nat * cos psi - x 6%nat * sin psi)). assert (Hb := pow2_ge_0 (x 5%nat * sin psi + x 6%nat * cos psi)).
  assert (E : forall y, y / ((1 / 1000) ^ 2 / 12) = 12000000 * y) by (intros; field). rewrite !E. lra.
Qed.
(** Two equal points in one call give different resolution matrices. *)
Theorem C40_sense_refuted : exists t p r r' M M', usable t 2 /\ reachable t p /\ calc_in_Q t [p; p] = Ok [Some (r, M); Some (r', M')] /\ ~ eqm 4 4 M M'.
Proof.
  set (t := plain (Some (MNum 1)) (-1)). destruct (plain_k (Some (MNum 1)) (-1)) as [Ki Kf]. fold t in Ki, Kf. assert (En := plain_energies (Some (MNum 1)) (-1) 0). fold t in En.
  assert (Re : reachable t (3, 0)). { unfold reachable. rewrite Ki, Kf, En. cbn [fst snd]. unfold t. cbn [plain t_mono t_ana x_tau]. rewrite Rabs_pos_eq by lra. lra. }
  assert (U2 := proj1 (plain_usable (-1) 2 (or_intror eq_refl))). destruct (plain_usable (-1) 1 (or_intror eq_refl)) as [U U']. fold t in U, U', U2.
  destruct (plain_ray t U Re eq_refl eq_refl eq_refl Ki Kf eq_refl eq_refl eq_refl eq_refl eq_refl) as (r & M & C & E & I & thm & tha & a & psi & Hm & Ha & X). cbv zeta in X. destruct X as [X _].
  destruct (plain_ray (after t 0) U' Re eq_refl eq_refl eq_refl Ki Kf eq_refl eq_refl eq_refl eq_refl eq_refl) as (r' & M' & C' & E' & I' & thm' & tha' & a' & psi' & Hm' & Ha' & X'). cbv zeta in X'. destruct X' as [_ [x X']].
  exists t, (3, 0), r, r', M, M'. split; auto. split; auto. split.
  - rewrite C40_split by (rewrite En; cbn [fst]; lra). rewrite E, E'. reflexivity.
  - intros Q. assert (QC : eqm 4 4 C C') by (destruct I as [I1 I2], I' as [I1' I2']; apply inverse_unique with M; [exact I2|]; eapply eqm_trans; [apply mul_ext; [apply eqm_refl|exact Q]|exact I1']).
    assert (Qf : qf 4 C up = qf 4 C' up) by (apply qf_ext; auto). clear QC Q I I' E E'.
    assert (Sm : sin thm = - (1 / 2)) by (subst thm; unfold theta, t; cbn [plain t_mono x_tau x_dir]; rewrite plain_sin by auto; lra).
    assert (Sm' : sin thm' = - (1 / 2)) by (subst thm'; unfold theta, t; cbn [after resigned plain t_mono x_tau x_dir]; rewrite plain_sin by auto; lra).
    destruct minute_bounds as [B1 B2].
    assert (Sa : sin tha = - (1 / 2)) by (subst tha; unfold theta, t; cbn [plain t_ana x_tau x_dir]; rewrite plain_sin by auto; lra).
    assert (Lo : 1 / 1000 <= qf 4 C up).
    { eapply Rle_trans; [|apply (X (fun i => if Nat.eqb i 4 then - (1 / 1000) else 0))]. clear X X'.
      assert (Dv : forall h, 0 < h -> divergence 3 h = h * minute) by (intros h L; unfold divergence; destruct (Rlt_dec h 0); [lra|reflexivity]).
      unfold t. unfold collimation, spread, positions, bent_h, bent_v, angles, win, uniform, qf.
      cbn [plain after resigned t_mono t_ana t_guide t_detector t_hcol t_vcol x_mosaic x_vmosaic x_rh x_rv x_dir x_depth x_width x_height w_width w_height opt nth Nat.eqb sum diag].
      rewrite Sm, Sa, !Dv by lra. match goal with |- _ <= ?e => replace e with (6 / 1000 - 1 / 1000000 - 2 * (1 / (600000 * minute)) ^ 2) by (field; lra) end.
      assert (Bd : 0 < 1 / (600000 * minute) < 1 / 50). { assert (Pm : 0 < 600000 * minute) by lra. split; [apply Rdiv_lt_0_compat; lra|]. unfold Rdiv. rewrite !Rmult_1_l. apply Rinv_lt_contravar; lra. }
      nra. }
    assert (Up : qf 4 C' up <= 1 / 2000).
    { rewrite <- X'. match goal with |- _ - (?c + ?sp + ?p) <= _ => assert (P1 := collimation_nonneg 3 (after t 0) (angles 1 1 1 1 thm' tha' (a' / 2) x)); assert (P3 := positions_ge (-1) psi' x : _ <= p) end.
      match goal with |- _ - (?c + spread ?a ?b ?d ?e ?u ?v ?y ?z + ?p) <= _ => assert (P2 := spread_ge a b d e u v y z); set (sp := spread a b d e u v y z) in P2 |- *; clearbody sp end.
      clear X X'. revert P2. unfold bent_v at 1. rewrite Sm'. unfold angles at 1 2. unfold t at 1 2 3 4 5. cbn [nth after resigned plain t_mono x_vmosaic x_mosaic x_rv x_dir opt].
      match goal with |- (?o / (30 * minute)) ^ 2 <= _ -> _ => replace o with (x 1%nat + x 7%nat - 4 * x 4%nat) by field end.
      set (u := x 1%nat + x 7%nat - 4 * x 4%nat). intros P2.
      assert (Pu : 27000 * u ^ 2 <= (u / (30 * minute)) ^ 2).
      { assert (Pm : 0 < 30 * minute < 6 / 1000) by lra. unfold Rdiv. rewrite Rpow_mult_distr, Rmult_comm. apply Rmult_le_compat_l; [apply pow2_ge_0|].
        assert (Q1 : 1000 / 6 < / (30 * minute)) by (replace (1000 / 6) with (/ (6 / 1000)) by field; apply Rinv_lt_contravar; [apply Rmult_lt_0_compat|]; lra). nra. }
      assert (Ex4 : x 4%nat = (x 1%nat + x 7%nat - u) / 4) by (unfold u; field).
      assert (S1 := pow2_ge_0 (x 1%nat + 1 / 16000000)). assert (S7 := pow2_ge_0 (x 7%nat - 21 / 48000000)). assert (S10 := pow2_ge_0 (x 10%nat + 1 / 4000000)). assert (Su := pow2_ge_0 (u - 1 / 36000)).
      clearbody u. fold t. nra. }
    lra.
Qed.
Print Assumptions C40_sense_refuted.

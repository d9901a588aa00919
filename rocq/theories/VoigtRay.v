(** The approximations of the line shape against the integrals of VoigtInt.v; used by VoigtAccProps.v. *)
From Coq Require Import Reals.
From Coquelicot Require Import Coquelicot.
From Coq Require Import List ZArith Lra Lia Psatz Bool.
From Verif Require Import NumBounds SmaModel VoigtDisk VoigtCert VoigtAcc VoigtInt.
Import ListNotations.
Local Open Scope R_scope.

Lemma sqrtpi : 1772 / 1000 < sqrt PI < 17725 / 10000 /\ sqrt PI * sqrt PI = PI.
Proof.
  destruct PI_bounds as [B1 B2]. assert (S0 := sqrt_lt_R0 PI ltac:(lra)). assert (SS := sqrt_sqrt PI ltac:(lra)). repeat split; try exact SS; apply Rnot_le_lt; intros C.
  - assert (sqrt PI * sqrt PI <= 1772 / 1000 * (1772 / 1000)) by (apply Rmult_le_compat; lra). lra.
  - assert (17725 / 10000 * (17725 / 10000) <= sqrt PI * sqrt PI) by (apply Rmult_le_compat; lra). lra.
Qed.
Lemma kap_close : Rabs (IZR CN / IZR CD - 2 / sqrt PI) <= / 10 ^ 8.
Proof.
  destruct sqrtpi as [[L U] SS]. destruct PI_bounds as [B1 B2]. set (x := 2 / sqrt PI). assert (Px : 0 < x) by (unfold x; apply Rdiv_lt_0_compat; lra). assert (E : x * x * PI = 4) by (rewrite <- SS; unfold x; field; lra).
  unfold CN, CD. change (IZR (10 ^ 10)) with (IZR 10000000000). assert (P0 := PI_RGT_0). apply Rabs_le. split; apply Rnot_lt_le; intros C.
  - assert ((11283791771 / 10000000000) * (11283791771 / 10000000000) <= x * x) by (apply Rmult_le_compat; lra). assert ((11283791771 / 10000000000) * (11283791771 / 10000000000) * (314159265 / 100000000) <= x * x * PI) by (apply Rmult_le_compat; lra). lra.
  - assert (x * x <= (11283791571 / 10000000000) * (11283791571 / 10000000000)) by (apply Rmult_le_compat; lra). assert (x * x * PI <= (11283791571 / 10000000000) * (11283791571 / 10000000000) * (314159266 / 100000000)) by (apply Rmult_le_compat; [apply Rmult_le_pos|..]; lra). lra.
Qed.
Lemma ga_le S : 0 < S -> ga S <= / S.
Proof.
  intros P. unfold ga. rewrite exp_Ropp. apply Rinv_le_contravar; [exact P|]. assert (E := exp_ineq1_le (S * S)). assert (W := Rle_0_sqr (S - 1 / 2)). unfold Rsqr in W. lra.
Qed.
Lemma ga_small e : 0 < e -> exists S0, 0 < S0 /\ forall S, S0 <= S -> ga S <= e.
Proof.
  intros P. exists (/ e). assert (Ie := Rinv_0_lt_compat e P). split; [exact Ie|]. intros S L. eapply Rle_trans; [apply ga_le; lra|]. rewrite <- (Rinv_inv e). apply Rinv_le_contravar; [exact Ie|exact L].
Qed.
Lemma G_near e : 0 < e -> exists S0, 0 < S0 /\ forall S, S0 <= S -> sqrt PI / 2 - e <= G S.
Proof.
  intros P. destruct (proj2 (is_lim_spec G p_infty (sqrt PI / 2)) G_lim (mkposreal e P)) as [M HM]. exists (Rmax 1 (M + 1)). split; [assert (Q0 := Rmax_l 1 (M + 1)); lra|]. intros S L. assert (Q0 := Rmax_r 1 (M + 1)). specialize (HM S ltac:(lra)). cbv beta in HM. change (Rabs (G S - sqrt PI / 2) < e) in HM. apply Rabs_def2 in HM. lra.
Qed.

Lemma phi_0 t : phi t 0 = 1%C. Proof. unfold phi. replace (RtoC 0 * (- RtoC 0 - 2 * t))%C with (RtoC 0) by ring. apply c_eq; cbn; rewrite exp_0, ?cos_0, ?sin_0; ring. Qed.
(** * Along a horizontal ray *)
Lemma ray t (F Fd : R -> C) e B S1 : 0 <= fst t -> 0 <= e -> (forall s, 0 <= s -> cder F s (Fd s)) -> (forall s, 0 <= s -> Cmod (Fd s - 2 * along t 1 s * F s)%C <= e) ->
  (forall s, S1 <= s -> Cmod (F s) <= B) -> Cmod (F 0) <= e * (sqrt PI / 2).
Proof.
  intros A Pe D K Bd. apply le_epsilon. intros eta Pn. set (B' := Rmax B 1). assert (B1 : 1 <= B') by apply Rmax_r. assert (B2 : B <= B') by apply Rmax_l.
  destruct (ga_small (eta / B') ltac:(apply Rdiv_lt_0_compat; lra)) as [S0 [P0 H0]]. set (S := Rmax S0 S1). assert (L0 : S0 <= S) by apply Rmax_l. assert (L1 : S1 <= S) by apply Rmax_r.
  assert (M := path_bound (fun s => phi t s * F s)%C (fun s => phi t s * (Fd s - 2 * along t 1 s * F s))%C ga e S ltac:(lra)).
  assert (M1 : forall s, 0 <= s <= S -> cder (fun s => phi t s * F s)%C s (phi t s * (Fd s - 2 * along t 1 s * F s))%C).
  { intros s Hs. eapply cder_eq; [apply (cder_mult _ _ _ _ _ (phi_der_u t s) (D s ltac:(lra)))|]. unfold along. ring. }
  assert (M2 : forall s, 0 <= s <= S -> Cmod (phi t s * (Fd s - 2 * along t 1 s * F s))%C <= e * ga s).
  { intros s Hs. rewrite Cmod_mult, Rmult_comm. apply Rmult_le_compat; try apply Cmod_ge_0; [apply K; lra|apply phi_small; lra]. }
  specialize (M M1 M2 ga_cont). cbv beta in M. fold (G S) in M. assert (GS := G_le S).
  assert (Z0 : (phi t 0 * F 0)%C = F 0). { rewrite phi_0. ring. }
  rewrite Z0 in M. assert (T := cmod_sub (F 0) (phi t S * F S - F 0)%C). assert (T' := Cmod_triangle (phi t S * F S)%C (- (phi t S * F S - F 0))%C). replace (phi t S * F S + - (phi t S * F S - F 0))%C with (F 0) in T' by ring. rewrite Cmod_opp, Cmod_mult in T'.
  assert (Q1 : Cmod (phi t S) * Cmod (F S) <= eta / B' * B').
  { apply Rmult_le_compat; try apply Cmod_ge_0; [eapply Rle_trans; [apply phi_small; lra|apply H0; lra]|eapply Rle_trans; [apply Bd; lra|exact B2]]. }
  replace (eta / B' * B') with eta in Q1 by (field; lra). assert (e * G S <= e * (sqrt PI / 2)) by (apply Rmult_le_compat_l; lra). lra.
Qed.

(** * Bounds far out *)
Lemma zeval_up l : exists K, 0 <= K /\ forall t, 1 <= Cmod t -> Cmod t * Cmod (zeval l t) <= K * Cmod t ^ length l.
Proof.
  induction l as [|a l [K [PK IH]]]; [exists 0; split; [lra|]; intros t _; rewrite zeval_nil, Cmod_0; simpl; lra|].
  exists (Cmod (zr a) + K). assert (Pa := Cmod_ge_0 (zr a)). split; [lra|]. intros t T. rewrite zeval_cons. set (r := Cmod t) in *.
  apply Rle_trans with (r * (Cmod (zr a) + r * Cmod (zeval l t))); [apply Rmult_le_compat_l; [lra|]; eapply Rle_trans; [apply Cmod_triangle|]; rewrite Cmod_mult; fold r; lra|].
  specialize (IH t T). fold r in IH. cbn [length pow]. assert (R1 : 1 <= r ^ length l) by (apply pow_R1_Rle; exact T).
  assert (H1 : r * Cmod (zr a) <= Cmod (zr a) * (r * r ^ length l)) by (rewrite Rmult_comm; apply Rmult_le_compat_l; [exact Pa|]; assert (r * 1 <= r * r ^ length l) by (apply Rmult_le_compat_l; lra); lra).
  assert (H2 : r * (r * Cmod (zeval l t)) <= r * (K * r ^ length l)) by (apply Rmult_le_compat_l; lra). lra.
Qed.
Lemma rat_bounded N D0 d : (length N <= length D0)%nat -> d <> 0%Z -> exists B R0, forall t, R0 <= Cmod t -> Cmod (zeval N t / zeval (D0 ++ [d]) t)%C <= B.
Proof.
  intros L Nd. destruct (zeval_up N) as [K1 [PK1 H1]]. destruct (zeval_up D0) as [K2 [PK2 H2]]. set (m := Cmod (zr d)).
  assert (Pm : 0 < m). { unfold m, zr. rewrite Cmod_R. apply Rabs_pos_lt. intros Z. apply Nd. apply eq_IZR. exact Z. }
  exists (2 * K1 / m), (Rmax 1 (2 * K2 / m)). intros t T. assert (T1 : 1 <= Cmod t) by (eapply Rle_trans; [apply Rmax_l|exact T]). assert (T2 : 2 * K2 / m <= Cmod t) by (eapply Rle_trans; [apply Rmax_r|exact T]). specialize (H1 t T1). specialize (H2 t T1).
  set (r := Cmod t) in *. set (n := length D0) in *. assert (Pn : 1 <= r ^ n) by (apply pow_R1_Rle; exact T1).
  assert (LN : r ^ length N <= r ^ n) by (apply Rle_pow; [exact T1|exact L]).
  assert (ED : zeval (D0 ++ [d]) t = (pow_n t n * zr d + zeval D0 t)%C). { rewrite zeval_app. fold n. rewrite zeval_cons, zeval_nil. ring. }
  assert (LD : m * r ^ n / 2 <= Cmod (zeval (D0 ++ [d]) t)).
  { rewrite ED. eapply Rle_trans; [|apply cmod_sub]. rewrite Cmod_mult, cmod_pow_n. fold m r. set (z := Cmod (zeval D0 t)) in *.
    assert (Z1 : z <= m * r ^ n / 2). { apply Rmult_le_reg_l with r; [lra|]. apply Rle_trans with (K2 * r ^ n); [exact H2|]. replace (r * (m * r ^ n / 2)) with (m / 2 * r * r ^ n) by field. apply Rmult_le_compat_r; [lra|]. apply (Rmult_le_reg_r (2 / m)); [apply Rdiv_lt_0_compat; lra|]. replace (m / 2 * r * (2 / m)) with r by (field; lra). replace (K2 * (2 / m)) with (2 * K2 / m) by (field; lra). exact T2. }
    lra. }
  assert (PD : 0 < m * r ^ n / 2) by (assert (0 < m * r ^ n) by (apply Rmult_lt_0_compat; lra); lra). rewrite Cmod_div by (intros Z; rewrite Z, Cmod_0 in LD; lra).
  apply (Rmult_le_reg_r (Cmod (zeval (D0 ++ [d]) t))); [lra|]. replace (Cmod (zeval N t) / Cmod (zeval (D0 ++ [d]) t) * Cmod (zeval (D0 ++ [d]) t)) with (Cmod (zeval N t)) by (field; lra).
  assert (Z0 := Cmod_ge_0 (zeval N t)). apply Rle_trans with (K1 * r ^ n).
  - assert (1 * Cmod (zeval N t) <= r * Cmod (zeval N t)) by (apply Rmult_le_compat_r; lra). assert (K1 * r ^ length N <= K1 * r ^ n) by (apply Rmult_le_compat_l; lra). lra.
  - apply Rle_trans with (2 * K1 / m * (m * r ^ n / 2)); [right; field; lra|]. apply Rmult_le_compat_l; [apply Rmult_le_pos; [lra|apply Rlt_le, Rinv_0_lt_compat, Pm]|exact LD].
Qed.
Lemma cint_bound f a b M : a <= b -> (forall u, ccont f u) -> (forall u, Cmod (f u) <= M) -> Cmod (cint f a b) <= 2 * ((b - a) * M).
Proof.
  intros L K H.
  assert (A1 : Rabs (RInt (fun u => fst (f u)) a b) <= (b - a) * M) by (apply abs_RInt_le_const; [exact L|apply rint; intros; apply K|intros; eapply Rle_trans; [apply fst_le|apply H]]).
  assert (A2 : Rabs (RInt (fun u => snd (f u)) a b) <= (b - a) * M).
  { apply abs_RInt_le_const; [exact L|apply rint; intros; apply K|intros u _; eapply Rle_trans; [|apply (H u)]]. unfold Cmod. rewrite <- sqrt_Rsqr_abs. apply sqrt_le_1_alt. unfold Rsqr. assert (Q0 := Rle_0_sqr (fst (f u))). unfold Rsqr in Q0. cbn [pow]. lra. }
  apply Rle_trans with (Rabs (RInt (fun u => fst (f u)) a b) + Rabs (RInt (fun u => snd (f u)) a b)); [|lra].
  replace (cint f a b) with (RtoC (RInt (fun u => fst (f u)) a b) + ci * RtoC (RInt (fun u => snd (f u)) a b))%C by (apply c_eq; unfold cint, ci; cbn; ring). eapply Rle_trans; [apply Cmod_triangle|]. rewrite Cmod_mult, cmod_i, !Cmod_R. lra.
Qed.
Lemma kap_pos : 0 < 2 / sqrt PI < 113 / 100. Proof. destruct sqrtpi as [[L U] _]. split; [apply Rdiv_lt_0_compat; lra|]. apply (Rmult_lt_reg_r (sqrt PI)); [lra|]. replace (2 / sqrt PI * sqrt PI) with 2 by (field; lra). lra. Qed.
Lemma cmod_kap : Cmod kap = 2 / sqrt PI. Proof. unfold kap. rewrite Cmod_R. apply Rabs_right. assert (K := kap_pos). lra. Qed.
Lemma ga_1 u : ga u <= 1. Proof. unfold ga. rewrite <- exp_0. apply expm. assert (W := Rle_0_sqr u). unfold Rsqr in W. lra. Qed.
Lemma W_bounded S t : 0 <= S -> 0 <= fst t -> Cmod (W S t) <= 4 * S.
Proof.
  intros PS A. unfold W. rewrite Cmod_mult, cmod_kap. assert (K := kap_pos). set (z := Cmod _).
  assert (B : z <= 2 * ((S - 0) * 1)).
  { unfold z. apply Rle_trans with (2 * ((S - 0) * 1)); [|lra].
    set (f := fun u => phi t (Rmax 0 u)).
    assert (E : cint (phi t) 0 S = cint f 0 S). { unfold cint. f_equal; apply RInt_ext; intros u Hu; rewrite Rmin_left, Rmax_right in Hu by lra; unfold f; rewrite Rmax_right by lra; reflexivity. }
    rewrite E. apply cint_bound; [lra| |].
    - intros u. assert (KM : continuous (fun u => Rmax 0 u) u) by (apply continuity_pt_filterlim; apply (continuity_pt_ext (fun u => (0 + u + Rabs (0 - u)) / 2)); [intros v; unfold Rmax, Rabs; destruct Rle_dec, Rcase_abs; lra|]; reg; apply Rcontinuity_abs).
      destruct (phi_cont t (Rmax 0 u)) as [C1 C2]. split; [apply (continuous_comp (fun u => Rmax 0 u) (fun u => fst (phi t u))); assumption|apply (continuous_comp (fun u => Rmax 0 u) (fun u => snd (phi t u))); assumption].
    - intros u. unfold f. eapply Rle_trans; [apply phi_small; [exact A|apply Rmax_l]|apply ga_1]. }
  assert (Z0 : 0 <= z) by apply Cmod_ge_0. apply Rle_trans with (2 * z); [apply Rmult_le_compat_r; lra|lra].
Qed.

(** * A rational approximation *)
Definition delta (N D : list Z) (t : C) : C := ((zeval (pder N) t * zeval D t - zeval N t * zeval (pder D) t) / (zeval D t * zeval D t) - 2 * t * (zeval N t / zeval D t))%C.
Definition sgn (s : bool) : Z := if s then 1%Z else (-1)%Z.
Lemma good_defect N D s e t : good (defect N D (sgn s)) D (e * CD) h5 t -> zeval D t <> 0%C /\ Cmod (delta N D t + (if s then kap else - kap))%C <= IZR e / 10 ^ 5 + / 10 ^ 8.
Proof.
  intros [P K]. assert (Nz : zeval D t <> 0%C) by (intros Z; rewrite Z, Cmod_0 in P; lra). split; [exact Nz|]. rewrite defect_ok in K.
  set (c := RtoC (IZR CN / IZR CD)). set (cs := if s then c else (- c)%C). assert (PD : 0 < IZR CD) by (apply IZR_lt; reflexivity).
  assert (E : (zr CD * (zeval (pder N) t * zeval D t - zeval N t * zeval (pder D) t - 2 * t * (zeval N t * zeval D t)) + zr (sgn s * CN) * (zeval D t * zeval D t))%C = (zr CD * (zeval D t * zeval D t) * (delta N D t + cs))%C).
  { assert (Es : zr (sgn s * CN) = (zr CD * cs)%C). { rewrite zr_mul. unfold cs, c. replace (zr CN) with (zr CD * RtoC (IZR CN / IZR CD))%C by (unfold zr; rewrite <- RtoC_mult; f_equal; field; lra). destruct s; unfold sgn; [replace (zr 1) with (RtoC 1) by reflexivity|replace (zr (-1)) with (- (1))%C by (apply c_eq; unfold zr; simpl; ring)]; ring. }
    rewrite Es. unfold delta. field. exact Nz. }
  rewrite E in K. rewrite !Cmod_mult, mult_IZR in K. rewrite (cmod_zr CD) in K by (vm_compute; discriminate). unfold h5 in K. change (IZR (10 ^ 5)) with (IZR 100000) in K. set (z := Cmod (zeval D t)) in *. set (w := Cmod (delta N D t + cs)%C) in *.
  assert (K2 : w <= IZR e / 10 ^ 5). { apply (Rmult_le_reg_l (IZR CD * (z * z) * 100000)); [apply Rmult_lt_0_compat; [apply Rmult_lt_0_compat; [exact PD|apply Rmult_lt_0_compat; exact P]|lra]|]. replace (IZR CD * (z * z) * 100000 * (IZR e / 10 ^ 5)) with (IZR e * IZR CD * z ^ 2) by field. lra. }
  assert (Kc : Cmod ((if s then kap else - kap) - cs)%C <= / 10 ^ 8).
  { apply Rle_trans with (Rabs (IZR CN / IZR CD - 2 / sqrt PI)); [|apply kap_close]. right. destruct s; unfold cs, c, kap.
    - rewrite <- RtoC_minus, Cmod_R, Rabs_minus_sym. reflexivity.
    - replace (- RtoC (2 / sqrt PI) - - RtoC (IZR CN / IZR CD))%C with (RtoC (IZR CN / IZR CD) - RtoC (2 / sqrt PI))%C by ring. rewrite <- RtoC_minus, Cmod_R. reflexivity. }
  replace (delta N D t + (if s then kap else - kap))%C with ((delta N D t + cs) + ((if s then kap else - kap) - cs))%C by ring. eapply Rle_trans; [apply Cmod_triangle|]. fold w. lra.
Qed.
Lemma rat_der N D t d s : zeval D (along t d s) <> 0%C -> let p := along t d s in
  cder (fun s => zeval N (along t d s) / zeval D (along t d s))%C s (d * (delta N D p + 2 * p * (zeval N p / zeval D p)))%C.
Proof.
  intros Nz p. assert (P : 0 < sq (zeval D p)). { rewrite sq_cmod. apply pow_lt. apply Cmod_gt_0. exact Nz. }
  eapply cder_eq; [apply cder_div; [exact P|apply zeval_der, along_der|apply zeval_der, along_der]|]. cbn beta. fold p. unfold delta. field. exact Nz.
Qed.
Lemma rat_ray N D0 d e S t : (length N <= length D0)%nat -> d <> 0%Z -> 0 <= fst t -> 0 <= S -> (forall s, 0 <= s -> good (defect N (D0 ++ [d]) 1) (D0 ++ [d]) (e * CD) h5 (along t 1 s)) -> (0 <= e)%Z ->
  Cmod (zeval N t / zeval (D0 ++ [d]) t - W S t)%C <= (IZR e / 10 ^ 5 + / 10 ^ 8 + 2 / sqrt PI * ga S) * (sqrt PI / 2).
Proof.
  intros L Nd A PS K Pe. set (D := D0 ++ [d]) in *. destruct (rat_bounded N D0 d L Nd) as [B [R0 HB]]. fold D in HB. assert (Kp := kap_pos). assert (Gp := ga_pos S). apply IZR_le in Pe.
  assert (Fa : forall s, 0 <= s -> 0 <= fst (along t 1 s)) by (intros s Hs; rewrite along_fst; lra).
  assert (M := ray t (fun s => zeval N (along t 1 s) / zeval D (along t 1 s) - W S (along t 1 s))%C
    (fun s => let p := along t 1 s in delta N D p + 2 * p * (zeval N p / zeval D p) - (2 * p * W S p - kap + kap * phi p S))%C (IZR e / 10 ^ 5 + / 10 ^ 8 + 2 / sqrt PI * ga S) (B + 4 * S) (Rmax 0 R0) A).
  cbv beta zeta in M. assert (E0 : along t 1 0 = t) by (unfold along; ring). rewrite E0 in M. apply M; clear M.
  - assert (0 <= 2 / sqrt PI * ga S) by (apply Rmult_le_pos; lra). lra.
  - intros s Hs. destruct (good_defect N D true e _ (K s Hs)) as [Nz _]. eapply cder_eq; [apply cder_minus; [apply rat_der; exact Nz|apply W_der]|]. ring.
  - intros s Hs. destruct (good_defect N D true e _ (K s Hs)) as [_ H1]. set (p := along t 1 s) in *. cbn iota in H1.
    replace (delta N D p + 2 * p * (zeval N p / zeval D p) - (2 * p * W S p - kap + kap * phi p S) - 2 * p * (zeval N p / zeval D p - W S p))%C with ((delta N D p + kap) + - (kap * phi p S))%C by ring.
    eapply Rle_trans; [apply Cmod_triangle|]. rewrite Cmod_opp, Cmod_mult, cmod_kap. assert (2 / sqrt PI * Cmod (phi p S) <= 2 / sqrt PI * ga S) by (apply Rmult_le_compat_l; [lra|apply phi_small; [apply Fa, Hs|exact PS]]). lra.
  - intros s Hs. assert (H1 : 0 <= s) by (eapply Rle_trans; [apply Rmax_l|exact Hs]). assert (H2 : R0 <= s) by (eapply Rle_trans; [apply Rmax_r|exact Hs]). unfold Cminus. eapply Rle_trans; [apply Cmod_triangle|]. rewrite Cmod_opp. apply Rplus_le_compat; [|apply W_bounded; [exact PS|apply Fa, H1]].
    apply HB. eapply Rle_trans; [|apply fst_le]. rewrite along_fst. eapply Rle_trans; [|apply Rle_abs]. lra.
Qed.

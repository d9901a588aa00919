(** C80: the line shape is close to the convolution of a Gaussian with a Lorentzian. *)
From Coq Require Import Reals.
From Coquelicot Require Import Coquelicot.
From Coq Require Import List ZArith Lra Lia Psatz Bool.
From Verif Require Import NumBounds SmaModel VoigtProps VoigtDisk VoigtCert VoigtAcc VoigtInt VoigtRay.
Import ListNotations.
Local Open Scope R_scope.

(** * The approximation with the exponential *)
Definition V4 (t : C) : C := (cexp (t * t)%C - zeval N4 t / zeval D4 t)%C.
Lemma square_der t d s : cder (fun s => along t d s * along t d s)%C s (2 * d * along t d s)%C.
Proof. eapply cder_eq; [apply cder_mult; apply along_der|]. rewrite two_c. ring. Qed.
Lemma four_path t d S T e M : 0 <= S -> 0 <= T -> 0 <= e -> 0 <= M -> Cmod d = 1 ->
  (forall s, 0 <= s <= T -> 0 <= fst (along t d s) /\ good P4 D4 e2 h5 (along t d s) /\ exp (snd (along t d s) ^ 2 - fst (along t d s) ^ 2) <= M * ga s) ->
  e = 2 / 10 ^ 5 + / 10 ^ 8 + 2 / sqrt PI * ga S ->
  let E s := (cexp (- (along t d s * along t d s))%C * (V4 (along t d s) - W S (along t d s)))%C in
  Cmod (E T - E 0)%C <= e * M * (sqrt PI / 2).
Proof.
  intros PS PT Pe PM Md K Ee E.
  assert (B := path_bound E (fun s => let p := along t d s in cexp (- (p * p))%C * (d * (- (delta N4 D4 p) + kap - kap * phi p S)))%C ga (e * M) T PT). cbv zeta in B.
  assert (Kp := kap_pos). assert (Eg : P4 = defect N4 D4 (sgn false)) by (vm_compute; reflexivity). assert (Ee2 : e2 = (2 * CD)%Z) by reflexivity.
  eapply Rle_trans; [apply B|fold (G T); apply Rmult_le_compat_l; [apply Rmult_le_pos; assumption|apply G_le]]; clear B.
  - intros s Hs. destruct (K s Hs) as [Fp [Gd _]]. rewrite Eg, Ee2 in Gd. destruct (good_defect N4 D4 false 2 _ Gd) as [Nz _]. unfold E, V4. eapply cder_eq.
    + apply cder_mult; [apply cder_exp, cder_opp, square_der|]. apply cder_minus; [|apply W_der]. apply cder_minus; [apply cder_exp, square_der|apply rat_der; exact Nz].
    + cbn beta. set (p := along t d s) in *. set (c1 := cexp (- (p * p))%C). set (c2 := cexp (p * p)%C). set (q := (zeval N4 p / zeval D4 p)%C). change (cexp (Copp (Cmult p p))) with c1. ring.
  - intros s Hs. destruct (K s Hs) as [Fp [Gd Le]]. rewrite Eg, Ee2 in Gd. destruct (good_defect N4 D4 false 2 _ Gd) as [_ H1]. cbn iota in H1. set (p := along t d s) in *.
    rewrite !Cmod_mult, Md, Rmult_1_l, cmod_exp. replace (e * M * ga s) with (M * ga s * e) by ring. apply Rmult_le_compat; [apply Rlt_le, exp_pos|apply Cmod_ge_0| |].
    + eapply Rle_trans; [|exact Le]. right. f_equal. cbn [fst snd Copp Cmult]. ring.
    + replace (- delta N4 D4 p + kap - kap * phi p S)%C with (- (delta N4 D4 p + - kap) + - (kap * phi p S))%C by ring. eapply Rle_trans; [apply Cmod_triangle|]. rewrite !Cmod_opp, Cmod_mult, cmod_kap, Ee.
      assert (2 / sqrt PI * Cmod (phi p S) <= 2 / sqrt PI * ga S) by (apply Rmult_le_compat_l; [lra|apply phi_small; assumption]). lra.
  - apply ga_cont.
Qed.
Lemma exp_sq a : 0 <= a <= 75 / 100 -> exp (a * a) <= 23 / 10.
Proof.
  intros A. assert (H := exp_ineq1_le (- (a * a))). rewrite exp_Ropp in H. assert (P := exp_pos (a * a)). assert (a * a <= 5625 / 10000) by nra. set (x := exp (a * a)) in *. assert (I : / x * x = 1) by (field; lra). assert (4375 / 10000 * x <= / x * x) by (apply Rmult_le_compat_r; lra). lra.
Qed.
Definition cmi : C := (0, -1).
Lemma four a y S : 0 <= a <= 75 / 100 -> a <= 195 / 1000 * y - 176 / 1000 -> 0 <= S ->
  Cmod (V4 (a, y) - W S (a, y))%C <= 23 / 10 * (1 - 2 / sqrt PI * G S + (2 / 10 ^ 5 + / 10 ^ 8 + 2 / sqrt PI * ga S) * sqrt PI).
Proof.
  intros A L PS. set (e := 2 / 10 ^ 5 + / 10 ^ 8 + 2 / sqrt PI * ga S). assert (Kp := kap_pos). assert (Gp := ga_pos S). assert (Pe : 0 <= e) by (assert (0 <= 2 / sqrt PI * ga S) by (apply Rmult_le_pos; lra); unfold e; lra).
  destruct sqrtpi as [[Ls Us] _]. assert (Y : 0 <= y) by lra. set (M := exp (y * y)). assert (PM : 0 < M) by apply exp_pos.
  (* down the imaginary axis *)
  assert (B1 := four_path (0, y) cmi S y e M PS Y Pe (Rlt_le _ _ PM)). cbv zeta in B1.
  assert (C1 : Cmod cmi = 1) by (unfold Cmod, cmi; cbn [fst snd]; replace (0 ^ 2 + (-1) ^ 2) with 1 by ring; apply sqrt_1).
  assert (Al : forall s, along (0, y) cmi s = (0, y - s)) by (intros s; apply c_eq; unfold along, cmi; cbn; ring).
  specialize (B1 C1). assert (B1' : forall s, 0 <= s <= y -> 0 <= fst (along (0, y) cmi s) /\ good P4 D4 e2 h5 (along (0, y) cmi s) /\ exp (snd (along (0, y) cmi s) ^ 2 - fst (along (0, y) cmi s) ^ 2) <= M * ga s).
  { intros s Hs. rewrite Al. cbn [fst snd]. split; [lra|]. split; [apply good4a; lra|]. unfold M, ga. rewrite <- exp_plus. apply expm. assert (0 <= s * (y - s)) by (apply Rmult_le_pos; lra). simpl. lra. }
  specialize (B1 B1' eq_refl). cbv beta in B1. rewrite !Al in B1. replace (y - y) with 0 in B1 by ring. replace (y - 0) with y in B1 by ring.
  (* to the right *)
  assert (B2 := four_path (0, y) 1 S a e M PS (proj1 A) Pe (Rlt_le _ _ PM)). cbv zeta in B2. specialize (B2 Cmod_1).
  assert (Al2 : forall s, along (0, y) 1 s = (s, y)) by (intros s; apply c_eq; unfold along; cbn; ring).
  assert (B2' : forall s, 0 <= s <= a -> 0 <= fst (along (0, y) 1 s) /\ good P4 D4 e2 h5 (along (0, y) 1 s) /\ exp (snd (along (0, y) 1 s) ^ 2 - fst (along (0, y) 1 s) ^ 2) <= M * ga s).
  { intros s Hs. rewrite Al2. cbn [fst snd]. split; [lra|]. split; [apply good4; lra|]. unfold M, ga. rewrite <- exp_plus. apply expm. simpl. lra. }
  specialize (B2 B2' eq_refl). cbv beta in B2. rewrite !Al2 in B2.
  set (f0 := (V4 (0, 0) - W S (0, 0))%C) in *. set (f1 := (V4 (0, y) - W S (0, y))%C) in *. set (f2 := (V4 (a, y) - W S (a, y))%C) in *.
  assert (T1 := cmod_sub (cexp (- ((0, y) * (0, y))) * f1)%C (cexp (- ((0, 0) * (0, 0))) * f0 - cexp (- ((0, y) * (0, y))) * f1)%C).
  assert (T2 := cmod_sub (cexp (- ((a, y) * (a, y))) * f2)%C (- (cexp (- ((a, y) * (a, y))) * f2 - cexp (- ((0, y) * (0, y))) * f1))%C).
  replace (cexp (- ((0, y) * (0, y))) * f1 + (cexp (- ((0, 0) * (0, 0))) * f0 - cexp (- ((0, y) * (0, y))) * f1))%C with (cexp (- ((0, 0) * (0, 0))) * f0)%C in T1 by ring.
  replace (cexp (- ((a, y) * (a, y))) * f2 + - (cexp (- ((a, y) * (a, y))) * f2 - cexp (- ((0, y) * (0, y))) * f1))%C with (cexp (- ((0, y) * (0, y))) * f1)%C in T2 by ring.
  rewrite Cmod_opp in T2. rewrite !Cmod_mult, !cmod_exp in T1, T2. cbn [fst snd Copp Cmult] in T1, T2.
  replace (- (0 * 0 - y * y)) with (y * y) in T1, T2 by ring. replace (- (0 * 0 - 0 * 0)) with 0 in T1 by ring. rewrite exp_0 in T1. fold M in T1, T2. replace (- (a * a - y * y)) with (y * y + - (a * a)) in T2 by ring. rewrite exp_plus, exp_Ropp in T2. fold M in T2.
  assert (F0 : Cmod f0 = 1 - 2 / sqrt PI * G S).
  { assert (E0 : f0 = RtoC (1 - 2 / sqrt PI * G S)).
    { unfold f0, V4, W, kap. replace (cint (phi (0, 0)) 0 S) with (RtoC (G S)).
      - replace (zeval N4 (0, 0)) with (RtoC 0) by (unfold N4; rewrite zeval_cons; change (zr 0) with (RtoC 0); change ((0, 0) : C) with (RtoC 0); ring). change ((0, 0) : C) with (RtoC 0).
        replace (cexp (RtoC 0 * RtoC 0)%C) with (RtoC 1 : cx) by (apply c_eq; cbn; replace (0 * 0 - 0 * 0) with 0 by ring; replace (0 * 0 + 0 * 0) with 0 by ring; rewrite exp_0, ?cos_0, ?sin_0; ring).
        unfold Cdiv. rewrite RtoC_minus, RtoC_mult. ring.
      - apply c_eq; cbn [fst snd cint RtoC]; [unfold G; apply RInt_ext; intros u _; unfold phi, ga; cbn; replace (u * (- u + - (2 * 0 - 0 * 0)) - 0 * (- 0 + - (2 * 0 + 0 * 0))) with (- (u * u)) by ring; replace (u * (- 0 + - (2 * 0 + 0 * 0)) + 0 * (- u + - (2 * 0 - 0 * 0))) with 0 by ring; rewrite cos_0; rring|].
        symmetry. transitivity (RInt (fun _ => 0) 0 S); [apply RInt_ext; intros u _; unfold phi; cbn; replace (u * (- 0 + - (2 * 0 + 0 * 0)) + 0 * (- u + - (2 * 0 - 0 * 0))) with 0 by ring; rewrite sin_0; rring|]. rewrite RInt_const. unfold scal. simpl. unfold mult. simpl. ring. }
    rewrite E0, Cmod_R. apply Rabs_right, Rle_ge. assert (GL := G_le S). assert (2 / sqrt PI * G S <= 2 / sqrt PI * (sqrt PI / 2)) by (apply Rmult_le_compat_l; lra). replace (2 / sqrt PI * (sqrt PI / 2)) with 1 in H by (field; lra). lra. }
  rewrite F0 in T1. set (g := 1 - 2 / sqrt PI * G S) in *. set (k := e * (sqrt PI / 2)). assert (Pg : 0 <= g) by (rewrite <- F0; apply Cmod_ge_0). assert (M1 : 1 <= M) by (unfold M; rewrite <- exp_0; apply expm; nra).
  replace (e * M * (sqrt PI / 2)) with (M * k) in B1, B2 by (unfold k; ring).
  assert (F1 : M * Cmod f1 <= M * (g + k)) by (assert (1 * g <= M * g) by (apply Rmult_le_compat_r; lra); lra).
  assert (F1' : Cmod f1 <= g + k) by (apply Rmult_le_reg_l with M; assumption).
  assert (Q0 := exp_sq a A). assert (Px := exp_pos (a * a)). set (x := exp (a * a)) in *. assert (F2 : M * (/ x * Cmod f2) <= M * (g + k + k)) by lra. assert (F2' : / x * Cmod f2 <= g + k + k) by (apply Rmult_le_reg_l with M; assumption).
  assert (F3 : Cmod f2 <= x * (g + k + k)). { apply (Rmult_le_reg_l (/ x)); [apply Rinv_0_lt_compat, Px|]. replace (/ x * (x * (g + k + k))) with (g + k + k) by (field; lra). exact F2'. }
  assert (Pk : 0 <= k) by (unfold k; apply Rmult_le_pos; lra). eapply Rle_trans; [exact F3|]. replace (g + e * sqrt PI) with (g + k + k) by (unfold k; field). apply Rmult_le_compat_r; lra.
Qed.

(** * The convolution *)
Lemma psi_small t u : 0 < fst t -> Cmod (psi t u) <= ga u / fst t.
Proof.
  intros P. unfold psi. assert (N := den_nz t u P). rewrite Cmod_div by exact N. rewrite Cmod_R. assert (Gp := ga_pos u). rewrite Rabs_right by lra.
  assert (L : fst t <= Cmod (den t u)) by (eapply Rle_trans; [|apply fst_le]; unfold den; cbn [fst Cplus]; rewrite Rplus_0_r; apply Rle_abs). unfold Rdiv. apply Rmult_le_compat_l; [lra|]. apply Rinv_le_contravar; assumption.
Qed.
Definition conv_err (a T : R) : R := (Rabs (2 / sqrt PI - 4 / PI * G T) + 2 / PI / a * ga T + 2 / sqrt PI * ga T) * (sqrt PI / 2).
Lemma conv_near t T : 0 < fst t -> 0 <= T -> Cmod (H T t - W T t)%C <= conv_err (fst t) T.
Proof.
  intros P PT. assert (Kp := kap_pos). assert (Gp := ga_pos T). assert (P0 := PI_RGT_0). assert (IP := Rinv_0_lt_compat PI P0). set (a := fst t) in *. assert (Ia := Rinv_0_lt_compat a P).
  assert (Q1 : 0 <= 2 / PI / a * ga T) by (unfold Rdiv; repeat apply Rmult_le_pos; lra). assert (Q2 : 0 <= 2 / sqrt PI * ga T) by (apply Rmult_le_pos; lra). assert (Q3 := Rabs_pos (2 / sqrt PI - 4 / PI * G T)).
  assert (M := ray t (fun s => H T (along t 1 s) - W T (along t 1 s))%C
    (fun s => let p := along t 1 s in (2 * p * H T p - RtoC (/ PI) * (2 * RtoC (RInt ga (- T) T) + ci * (psi p T - psi p (- T)))) - (2 * p * W T p - kap + kap * phi p T))%C
    (Rabs (2 / sqrt PI - 4 / PI * G T) + 2 / PI / a * ga T + 2 / sqrt PI * ga T) (/ PI * (2 * ((T - - T) * / a)) + 4 * T) 0 (Rlt_le _ _ P)).
  cbv beta zeta in M. assert (E0 : along t 1 0 = t) by (unfold along; ring). rewrite E0 in M. unfold conv_err. apply M; clear M.
  - lra.
  - intros s Hs. eapply cder_eq; [apply cder_minus; [apply H_der; assumption|apply W_der]|]. cbv zeta. ring.
  - intros s Hs. set (p := along t 1 s). assert (Ap : fst p = a + s) by (unfold p; apply along_fst). rewrite ga_sym.
    replace (2 * p * H T p - RtoC (/ PI) * (2 * RtoC (2 * G T) + ci * (psi p T - psi p (- T))) - (2 * p * W T p - kap + kap * phi p T) - 2 * p * (H T p - W T p))%C with (RtoC (2 / sqrt PI - 4 / PI * G T) + - (RtoC (/ PI) * (ci * (psi p T - psi p (- T)))) + - (kap * phi p T))%C.
    2:{ unfold kap. replace (2 / sqrt PI - 4 / PI * G T) with (2 / sqrt PI - / PI * (2 * (2 * G T))) by (field; split; [apply Rgt_not_eq; lra|apply Rgt_not_eq, sqrt_lt_R0; lra]). rewrite RtoC_minus, !RtoC_mult. ring. }
    eapply Rle_trans; [apply Cmod_triangle|]. apply Rplus_le_compat.
    + eapply Rle_trans; [apply Cmod_triangle|]. apply Rplus_le_compat; [rewrite Cmod_R; apply Rle_refl|]. rewrite Cmod_opp, !Cmod_mult, cmod_i, Cmod_R, Rmult_1_l, Rabs_right by lra.
      assert (GT : ga (- T) = ga T) by (unfold ga; f_equal; ring). assert (Pa : ga T / fst p <= ga T / a). { unfold Rdiv. apply Rmult_le_compat_l; [lra|]. apply Rinv_le_contravar; lra. }
      assert (B1 := psi_small p T ltac:(lra)). assert (B2 := psi_small p (- T) ltac:(lra)). rewrite GT in B2.
      replace (2 / PI / a * ga T) with (/ PI * (ga T / a + ga T / a)) by (field; lra). apply Rmult_le_compat_l; [lra|]. unfold Cminus. eapply Rle_trans; [apply Cmod_triangle|]. rewrite Cmod_opp. lra.
    + rewrite Cmod_opp, Cmod_mult, cmod_kap. apply Rmult_le_compat_l; [lra|]. apply phi_small; lra.
  - intros s Hs. set (p := along t 1 s). assert (Ap : fst p = a + s) by (unfold p; apply along_fst). unfold Cminus. eapply Rle_trans; [apply Cmod_triangle|]. rewrite Cmod_opp. apply Rplus_le_compat; [|apply W_bounded; lra].
    unfold H. rewrite Cmod_mult, Cmod_R, Rabs_right by lra. apply Rmult_le_compat_l; [lra|]. apply cint_bound; [lra|intros; apply psi_cont; lra|]. intros u. eapply Rle_trans; [apply psi_small; lra|].
    assert (G1 := ga_1 u). assert (Gu := ga_pos u). unfold Rdiv. rewrite <- (Rmult_1_l (/ a)). apply Rmult_le_compat; try lra; [apply Rlt_le, Rinv_0_lt_compat; lra|apply Rinv_le_contravar; lra].
Qed.
Lemma conv_small a e : 0 < a -> 0 < e -> exists T0, 0 < T0 /\ forall T, T0 <= T -> conv_err a T <= e.
Proof.
  intros Pa Pe. assert (Kp := kap_pos). destruct sqrtpi as [[Ls Us] SS]. assert (P0 := PI_RGT_0). assert (IP := Rinv_0_lt_compat PI P0). assert (Ia := Rinv_0_lt_compat a Pa).
  set (c := 2 / PI / a + 2 / sqrt PI). assert (Pc : 0 < c) by (unfold c; assert (0 < 2 / PI / a) by (unfold Rdiv; repeat apply Rmult_lt_0_compat; lra); lra).
  destruct (ga_small (e / (2 * c)) ltac:(apply Rdiv_lt_0_compat; lra)) as [S1 [P1 H1]]. destruct (G_near (e / 4) ltac:(lra)) as [S2 [P2 H2]]. exists (Rmax S1 S2). split; [assert (W0 := Rmax_l S1 S2); lra|]. intros T L.
  specialize (H1 T ltac:(eapply Rle_trans; [apply Rmax_l|exact L])). specialize (H2 T ltac:(eapply Rle_trans; [apply Rmax_r|exact L])). assert (GL := G_le T). unfold conv_err.
  assert (E1 : 2 / sqrt PI - 4 / PI * G T = 4 / PI * (sqrt PI / 2 - G T)). { replace (4 / PI) with (4 / (sqrt PI * sqrt PI)) by (rewrite SS; reflexivity). field. lra. }
  rewrite E1, Rabs_right by (apply Rle_ge, Rmult_le_pos; [unfold Rdiv; apply Rmult_le_pos; lra|lra]).
  assert (E2 : 4 / PI * (sqrt PI / 2 - G T) <= 2 * (e / 4)). { assert (B := PI_bounds). apply Rmult_le_compat; [unfold Rdiv; apply Rmult_le_pos; lra|lra| |lra]. apply (Rmult_le_reg_r PI); [lra|]. replace (4 / PI * PI) with 4 by (field; lra). lra. }
  assert (E3 : 2 / PI / a * ga T + 2 / sqrt PI * ga T <= e / 2). { replace (2 / PI / a * ga T + 2 / sqrt PI * ga T) with (c * ga T) by (unfold c; ring). replace (e / 2) with (c * (e / (2 * c))) by (field; lra). apply Rmult_le_compat_l; lra. }
  apply Rle_trans with (e * 1); [|lra]. assert (Gp := ga_pos T). apply Rmult_le_compat; try lra. assert (0 <= 2 / PI / a * ga T) by (unfold Rdiv; repeat apply Rmult_le_pos; lra). assert (0 <= 2 / sqrt PI * ga T) by (apply Rmult_le_pos; lra). assert (0 <= 4 / PI * (sqrt PI / 2 - G T)) by (apply Rmult_le_pos; [unfold Rdiv; apply Rmult_le_pos; lra|lra]). lra.
Qed.

Definition conv (x a T : R) : R := RInt (fun u => exp (- u ^ 2) * (a / PI / ((x - u) ^ 2 + a ^ 2))) (- T) T.
Lemma conv_cont x a : 0 < a -> forall u : R, continuous (fun u => exp (- u ^ 2) * (a / PI / ((x - u) ^ 2 + a ^ 2))) u.
Proof.
  intros Pa u. apply (ex_derive_continuous (K := R_AbsRing) (V := R_NormedModule)). auto_derive. assert (0 < a * a) by (apply Rmult_lt_0_compat; assumption). assert (W0 := Rle_0_sqr (x - u)). unfold Rsqr in W0. simpl. repeat split; lra.
Qed.
Lemma conv_H x a T : 0 < a -> fst (H T (a, - x)) = conv x a T.
Proof.
  intros Pa. unfold H, conv. cbn [fst snd Cmult RtoC cint]. rewrite Rmult_0_l, Rminus_0_r. transitivity (RInt (fun u => / PI * fst (psi (a, - x) u)) (- T) T).
  2:{ apply RInt_ext. intros u _. unfold psi, ga, den. cbn [pow]. cbn [fst snd Cdiv Cmult Cinv Cplus RtoC]. replace (- (u * (u * 1))) with (- (u * u)) by ring. assert (0 < a * a) by (apply Rmult_lt_0_compat; assumption). assert (W0 := Rle_0_sqr (x - u)). unfold Rsqr in W0. assert (P0 := PI_RGT_0).
    match goal with |- @eq _ ?l ?r => change (@eq R l r) end. field. repeat split; lra. }
  symmetry. apply (RInt_scal (V := R_CompleteNormedModule) (fun u => fst (psi (a, - x) u)) (- T) T (/ PI)). apply rint. intros u. destruct (psi_cont (a, - x) u Pa) as [K _]. exact K.
Qed.
Lemma conv_even x a T : 0 < a -> conv (- x) a T = conv x a T.
Proof.
  intros Pa. unfold conv. set (f := fun u => exp (- u ^ 2) * (a / PI / ((x - u) ^ 2 + a ^ 2))). assert (Ex : forall p q, ex_RInt f p q) by (intros p q; apply rint; apply conv_cont; exact Pa).
  assert (L := RInt_comp_lin f (-1) 0 (- T) T). replace (-1 * - T + 0) with T in L by ring. replace (-1 * T + 0) with (- T) in L by ring. specialize (L (Ex _ _)).
  rewrite <- (opp_RInt_swap f T (- T)) by apply Ex. rewrite <- L, <- RInt_opp.
  - apply RInt_ext. intros u _. unfold scal, opp. simpl. unfold mult, f. simpl. replace (- x - u) with (- (x - (-1 * u + 0))) by ring. replace (- ((-1 * u + 0) * ((-1 * u + 0) * 1))) with (- (u * (u * 1))) by ring. replace (- (x - (-1 * u + 0)) * (- (x - (-1 * u + 0)) * 1)) with ((x - (-1 * u + 0)) * ((x - (-1 * u + 0)) * 1)) by ring. rring.
  - apply rint. intros u. apply (continuous_scal_r (-1) (fun y => f (-1 * y + 0))). apply (continuous_comp (fun y => -1 * y + 0) f); [|apply (conv_cont x a Pa)].
    apply (continuous_plus (fun y => -1 * y) (fun _ => 0)); [|apply continuous_const]. apply (continuous_scal_r (-1) (fun y : R => y)). apply continuous_id.
Qed.
Lemma lim_mono (f : R -> R) M : (forall x y, 0 <= x -> x <= y -> f x <= f y) -> (forall x, 0 <= x -> f x <= M) -> exists l : R, is_lim f p_infty l.
Proof.
  intros Mo B. destruct (completeness (fun y => exists x, 0 <= x /\ y = f x)) as [l [U L]].
  - exists M. intros y [x [Px ->]]. apply B, Px.
  - exists (f 0), 0. split; [lra|reflexivity].
  - exists l. apply is_lim_spec. intros e. assert (Pe := cond_pos e). assert (Ex : exists x, 0 <= x /\ l - e < f x).
    { destruct (Rle_dec 0 0) as [_|N]; [|lra]. apply Classical_Prop.NNPP. intros N. assert (L' := L (l - e)). assert (l <= l - e); [|lra]. apply L'. intros y [x [Px ->]]. apply Rnot_lt_le. intros C. apply N. exists x. auto. }
    destruct Ex as [x [Px Hx]]. exists x. intros y Hy. assert (f y <= l) by (apply U; exists y; split; [lra|reflexivity]). assert (f x <= f y) by (apply Mo; lra). apply Rabs_def1; lra.
Qed.
Lemma conv_lim x a : 0 < a -> exists k : R, is_lim (conv x a) p_infty k.
Proof.
  intros Pa. assert (P0 := PI_RGT_0). assert (A2 : 0 < a ^ 2) by (apply pow_lt; exact Pa). set (f := fun u => exp (- u ^ 2) * (a / PI / ((x - u) ^ 2 + a ^ 2))).
  assert (Pf : forall u, 0 <= f u). { intros u. unfold f. apply Rmult_le_pos; [apply Rlt_le, exp_pos|]. assert (W0 := pow2_ge_0 (x - u)). unfold Rdiv. apply Rmult_le_pos; [apply Rmult_le_pos; [lra|apply Rlt_le, Rinv_0_lt_compat, P0]|apply Rlt_le, Rinv_0_lt_compat; lra]. }
  assert (Ex : forall p q, ex_RInt f p q) by (intros p q; apply rint; apply conv_cont; exact Pa).
  apply (lim_mono (conv x a) (/ (PI * a) * sqrt PI)).
  - intros p q Pp L. unfold conv. fold f. rewrite <- (RInt_Chasles f (- q) (- p) q), <- (RInt_Chasles f (- p) p q) by apply Ex. unfold plus. simpl. assert (0 <= RInt f (- q) (- p)) by (apply RInt_ge_0; [lra|apply Ex|intros; apply Pf]). assert (0 <= RInt f p q) by (apply RInt_ge_0; [lra|apply Ex|intros; apply Pf]). lra.
  - intros T PT. apply Rle_trans with (RInt (fun u => / (PI * a) * ga u) (- T) T).
    + unfold conv. apply RInt_le; [lra|apply Ex|apply rint; intros; apply (continuous_scal_r (/ (PI * a)) ga), ga_cont|]. intros u _. unfold ga. replace (- u ^ 2) with (- (u * u)) by ring. rewrite Rmult_comm. apply Rmult_le_compat_r; [apply Rlt_le, exp_pos|].
      assert (W0 := pow2_ge_0 (x - u)). replace (/ (PI * a)) with (a / PI / a ^ 2) by (field; lra). unfold Rdiv. apply Rmult_le_compat_l; [apply Rmult_le_pos; [lra|apply Rlt_le, Rinv_0_lt_compat, P0]|]. apply Rinv_le_contravar; lra.
    + assert (E := RInt_scal (V := R_CompleteNormedModule) ga (- T) T (/ (PI * a)) (ga_int _ _)). change (RInt (fun u => / (PI * a) * ga u) (- T) T = / (PI * a) * RInt ga (- T) T) in E. rewrite E. apply Rmult_le_compat_l; [apply Rlt_le, Rinv_0_lt_compat, Rmult_lt_0_compat; lra|]. rewrite ga_sym. assert (GL := G_le T). lra.
Qed.

(** * The regions *)
Definition kk : C := zr 100000000.
Lemma k8 (c : Z) (r : R) : IZR c = 100000000 * r -> zr c = (kk * (cre r : C))%C.
Proof. intros E. apply c_eq; unfold kk, zr, cre; cbn [fst snd RtoC Cmult]; lra. Qed.
Lemma kk_nz : kk <> 0%C. Proof. intros Z. apply (f_equal fst) in Z. unfold kk, zr in Z. cbn [fst RtoC] in Z. lra. Qed.
Lemma cdiv_c (z w : C) (z' w' : C) : z' = (kk * z)%C -> w' = (kk * w)%C -> w' <> 0%C -> cdiv z w = Some (z' / w')%C.
Proof.
  intros -> -> N. assert (Nw : w <> 0%C) by (intros ->; apply N; ring). assert (E : (kk * z / (kk * w))%C = (z / w)%C) by (field; split; [exact Nw|apply kk_nz]). rewrite E. unfold cdiv.
  assert (P := Cmod_gt_0 w). assert (P' : 0 < fst w * fst w + snd w * snd w) by (change (0 < sq w); rewrite sq_cmod; apply pow_lt, P, Nw).
  destruct Req_EM_T as [Z|_]; [lra|]. f_equal. apply c_eq; cbn [fst snd Cdiv Cmult Cinv]; field; cbn [pow]; lra.
Qed.
Definition err (S : R) : R := 284 / 10 ^ 6 + 23 / 10 * (1 - 2 / sqrt PI * G S) + 9 * ga S.
Lemma rat_err S : (32 / 10 ^ 5 + / 10 ^ 8 + 2 / sqrt PI * ga S) * (sqrt PI / 2) <= err S.
Proof.
  destruct sqrtpi as [[Ls Us] _]. assert (Gp := ga_pos S). assert (GL := G_le S). unfold err. replace ((32 / 10 ^ 5 + / 10 ^ 8 + 2 / sqrt PI * ga S) * (sqrt PI / 2)) with ((32 / 10 ^ 5 + / 10 ^ 8) * (sqrt PI / 2) + ga S) by (field; lra).
  assert (2 / sqrt PI * G S <= 1). { apply (Rmult_le_reg_r (sqrt PI)); [lra|]. replace (2 / sqrt PI * G S * sqrt PI) with (2 * G S) by (field; lra). lra. }
  lra.
Qed.
Lemma four_err S : 23 / 10 * (1 - 2 / sqrt PI * G S + (2 / 10 ^ 5 + / 10 ^ 8 + 2 / sqrt PI * ga S) * sqrt PI) <= err S.
Proof.
  destruct sqrtpi as [[Ls Us] _]. assert (Gp := ga_pos S). unfold err. replace ((2 / 10 ^ 5 + / 10 ^ 8 + 2 / sqrt PI * ga S) * sqrt PI) with ((2 / 10 ^ 5 + / 10 ^ 8) * sqrt PI + 2 * ga S) by (field; lra). lra.
Qed.
Definition region_ok (o : option cx) (t : C) : Prop := exists z : C, o = Some z /\ forall S, 0 <= S -> Cmod (z - W S t)%C <= err S.
Lemma e32_eq : e32 = (32 * CD)%Z. Proof. reflexivity. Qed.
Lemma along_1 a y s : along (a, y) 1 s = (a + s, y). Proof. apply c_eq; unfold along; cbn; ring. Qed.
Lemma region a y N D0 d P o : 0 <= a -> (length N <= length D0)%nat -> d <> 0%Z -> P = defect N (D0 ++ [d]) 1 -> (forall s, 0 <= s -> good P (D0 ++ [d]) e32 h5 (a + s, y)) ->
  o = Some (zeval N (a, y) / zeval (D0 ++ [d]) (a, y))%C -> region_ok o (a, y).
Proof.
  intros A L Nd EP K Eo. exists (zeval N (a, y) / zeval (D0 ++ [d]) (a, y))%C. split; [exact Eo|]. intros S PS. eapply Rle_trans; [apply (rat_ray N D0 d 32 S (a, y) L Nd A PS)|apply rat_err].
  - intros s Hs. rewrite along_1, <- EP, <- e32_eq. apply K, Hs.
  - lia.
Qed.
Lemma good_nz P D e h t : good P D e h t -> zeval D t <> 0%C.
Proof. intros [Q _] Z. rewrite Z, Cmod_0 in Q. lra. Qed.
Lemma region1 a y : 0 <= a -> 0 <= y -> 15 <= y + a -> region_ok (approx1 (a, y)) (a, y).
Proof.
  intros A Y L. apply (region a y N1 [50000000; 0]%Z 100000000%Z P1); auto; try discriminate; try (vm_compute; reflexivity); [intros s Hs; apply good1; lra|]. assert (Nz := good_nz _ _ _ _ _ (good1 a y A Y L)).
  change ([50000000; 0] ++ [100000000])%list%Z with D1. unfold approx1. apply cdiv_c; [| |exact Nz].
  - unfold N1. rewrite !zeval_cons, zeval_nil. rewrite (k8 56418960 (5641896 / 10 ^ 7)) by lra. change (zr 0) with (RtoC 0). change cmul with Cmult. ring.
  - unfold D1. rewrite !zeval_cons, zeval_nil. rewrite (k8 50000000 (5 / 10)) by lra. change (zr 0) with (RtoC 0). fold kk. change cmul with Cmult. change cadd with Cplus. ring.
Qed.
Lemma region2 a y : 0 <= a -> 0 <= y -> 55 / 10 <= y + a -> region_ok (approx2 (a, y) (cmul (a, y) (a, y))) (a, y).
Proof.
  intros A Y L. apply (region a y N2 [75000000; 0; 300000000; 0]%Z 100000000%Z P2); [exact A|cbn; lia|discriminate|vm_compute; reflexivity|intros s Hs; apply good2; lra|]. assert (Nz := good_nz _ _ _ _ _ (good2 a y A Y L)).
  change ([75000000; 0; 300000000; 0] ++ [100000000])%list%Z with D2. unfold approx2. apply cdiv_c; [| |exact Nz].
  - unfold N2. rewrite !zeval_cons, zeval_nil. rewrite (k8 56418960 (5641896 / 10 ^ 7)), (k8 141047400 (1410474 / 10 ^ 6)) by lra. change (zr 0) with (RtoC 0). change cadd with Cplus. change cmul with Cmult. ring.
  - unfold D2. rewrite !zeval_cons, zeval_nil. rewrite (k8 75000000 (75 / 100)), (k8 300000000 3) by lra. change (zr 0) with (RtoC 0). fold kk. change cadd with Cplus. change cmul with Cmult. ring.
Qed.
Lemma region3 a y : 0 <= a -> 0 <= y <= 475 / 100 -> 195 / 1000 * y - 177 / 1000 <= a -> region_ok (approx3 (a, y)) (a, y).
Proof.
  intros A Y L. apply (region a y N3 [1649550000; 3882363000; 3927121000; 2169274000; 669939800]%Z 100000000%Z P3); [exact A|cbn; lia|discriminate|vm_compute; reflexivity|intros s Hs; apply good3; lra|]. assert (Nz := good_nz _ _ _ _ _ (good3 a y A Y L)).
  change ([1649550000; 3882363000; 3927121000; 2169274000; 669939800] ++ [100000000])%list%Z with D3. unfold approx3. apply cdiv_c; [| |exact Nz].
  - unfold N3, n3. cbn [horner]. rewrite !zeval_cons, zeval_nil. rewrite (k8 1649550000 (164955 / 10 ^ 4)), (k8 2020933000 (2020933 / 10 ^ 5)), (k8 1196482000 (1196482 / 10 ^ 5)), (k8 377898700 (3778987 / 10 ^ 6)), (k8 56422360 (5642236 / 10 ^ 7)) by lra.
    change cadd with Cplus. change cmul with Cmult. ring.
  - unfold D3, d3. cbn [horner]. rewrite !zeval_cons, zeval_nil. rewrite (k8 1649550000 (164955 / 10 ^ 4)), (k8 3882363000 (3882363 / 10 ^ 5)), (k8 3927121000 (3927121 / 10 ^ 5)), (k8 2169274000 (2169274 / 10 ^ 5)), (k8 669939800 (6699398 / 10 ^ 6)) by lra. fold kk.
    change cadd with Cplus. change cmul with Cmult. change (cre 1) with (RtoC 1 : cx). ring.
Qed.
Lemma zr_neg c : zr (- c) = (- zr c)%C. Proof. apply c_eq; unfold zr; cbn [fst snd RtoC Copp]; [apply opp_IZR|ring]. Qed.
Fixpoint hm (l : list R) (t : C) : C := match l with [] => cre 0 : C | [c] => cre c : C | c :: l => ((cre c : C) - t * hm l t)%C end.
Lemma hm_ok l t : horner_minus l t = hm l t.
Proof. induction l as [|c [|d l] IH]; [reflexivity|reflexivity|]. cbn [horner_minus hm] in *. rewrite IH. reflexivity. Qed.
Lemma approx4_c (t : C) : approx4 t (cmul t t) = cdiv (t * hm n4 (t * t))%C (hm d4 (t * t)%C).
Proof. assert (E : cmul t t = (t * t)%C) by reflexivity. unfold approx4. rewrite E, (hm_ok n4), (hm_ok d4). generalize (hm n4 (t * t)%C) (hm d4 (t * t)%C). reflexivity. Qed.
Lemma cre_1 : cre 1 = RtoC 1. Proof. reflexivity. Qed.
Lemma region4 a y : 0 <= a <= 75 / 100 -> a <= 195 / 1000 * y - 176 / 1000 -> region_ok (option_map (fun z => csub (cexp (cmul (a, y) (a, y))) z) (approx4 (a, y) (cmul (a, y) (a, y)))) (a, y).
Proof.
  intros A L. exists (V4 (a, y)). split; [|intros S PS; eapply Rle_trans; [apply (four a y S A L PS)|apply four_err]].
  assert (Nz := good_nz _ _ _ _ _ (good4 a y A L)). set (t := (a, y)) in *. replace (approx4 t (cmul t t)) with (Some (zeval N4 t / zeval D4 t)%C : option cx); [reflexivity|]. symmetry. rewrite approx4_c. apply cdiv_c; [| |exact Nz].
  - unfold N4, n4. cbn [hm]. rewrite !zeval_cons, zeval_nil. change (zr (-332199000000)) with (zr (- (332199000000))). change (zr (-21903100000)) with (zr (- (21903100000))). change (zr (-132052200)) with (zr (- (132052200))). rewrite !zr_neg.
    rewrite (k8 3618331000000 (3618331 / 100)), (k8 332199000000 (332199 / 100)), (k8 154078700000 (1540787 / 1000)), (k8 21903100000 (219031 / 1000)), (k8 3576680000 (357668 / 10 ^ 4)), (k8 132052200 (1320522 / 10 ^ 6)), (k8 56419000 (56419 / 10 ^ 5)) by lra.
    rewrite zr_0. ring.
  - unfold D4, d4. cbn [hm]. rewrite !zeval_cons, zeval_nil. change (zr (-2432280000000)) with (zr (- (2432280000000))). change (zr (-218618000000)) with (zr (- (218618000000))). change (zr (-6157040000)) with (zr (- (6157040000))). change (zr (-100000000)) with (zr (- (100000000))). rewrite !zr_neg. fold kk.
    rewrite (k8 3206660000000 (320666 / 10)), (k8 2432280000000 (243228 / 10)), (k8 902223000000 (902223 / 100)), (k8 218618000000 (218618 / 100)), (k8 36421900000 (364219 / 1000)), (k8 6157040000 (615704 / 10 ^ 4)), (k8 184144000 (184144 / 10 ^ 5)) by lra.
    rewrite zr_0, cre_1. ring.
Qed.

Lemma voigt_region x a : 0 < a -> exists z : C, voigt x a = Some (fst z) /\ forall S, 0 <= S -> Cmod (z - W S (a, Rabs x))%C <= err S.
Proof.
  intros Pa. assert (Y := Rabs_pos x). assert (E0 : voigt x a = voigt (- Rabs x) a) by (unfold Rabs; destruct (Rcase_abs x); [rewrite Ropp_involutive; reflexivity|symmetry; apply C76_line_even]). rewrite E0.
  unfold voigt. rewrite Rabs_Ropp, Rabs_Rabsolu, Ropp_involutive. set (y := Rabs x) in *. clearbody y. set (t := (a, y)). set (u := cmul t t).
  assert (R4 : 0 <= a <= 75 / 100 -> a <= 195 / 1000 * y - 176 / 1000 -> exists z : C, option_map fst (option_map (fun z => csub (cexp u) z) (approx4 t u)) = Some (fst z) /\ forall S, 0 <= S -> Cmod (z - W S t)%C <= err S).
  { intros A L. destruct (region4 a y A L) as [z [Ez Hz]]. fold t in Ez. fold u in Ez. rewrite Ez. exists z. split; [reflexivity|exact Hz]. }
  assert (R3 : y <= 475 / 100 -> 195 / 1000 * y - 177 / 1000 <= a -> exists z : C, option_map fst (approx3 t) = Some (fst z) /\ forall S, 0 <= S -> Cmod (z - W S t)%C <= err S).
  { intros A L. destruct (region3 a y ltac:(lra) ltac:(lra) L) as [z [Ez Hz]]. fold t in Ez. rewrite Ez. exists z. split; [reflexivity|exact Hz]. }
  assert (R2 : 55 / 10 <= y + a -> exists z : C, option_map fst (approx2 t u) = Some (fst z) /\ forall S, 0 <= S -> Cmod (z - W S t)%C <= err S).
  { intros L. destruct (region2 a y ltac:(lra) ltac:(lra) L) as [z [Ez Hz]]. fold t in Ez. fold u in Ez. rewrite Ez. exists z. split; [reflexivity|exact Hz]. }
  assert (R1 : 15 <= y + a -> exists z : C, option_map fst (approx1 t) = Some (fst z) /\ forall S, 0 <= S -> Cmod (z - W S t)%C <= err S).
  { intros L. destruct (region1 a y ltac:(lra) ltac:(lra) L) as [z [Ez Hz]]. fold t in Ez. rewrite Ez. exists z. split; [reflexivity|exact Hz]. }
  destruct (ltP a (75 / 100)) as [La|La].
  - destruct (ltP (y + a) (55 / 10)) as [Ls|Ls], (leP (195 / 1000 * y - 176 / 1000) a) as [Lb|Lb]; cbn [andb negb]; [apply R3; lra|apply R4; lra..].
  - rewrite !andb_false_r. destruct (leP (75 / 100) a) as [_|N]; [|lra]. rewrite !andb_true_r.
    destruct (ltP (y + a) (55 / 10)) as [Ls|Ls]; cbn [andb]; [destruct (ltP a (55 / 10)) as [_|N]; [apply R3; lra|exfalso; apply N; lra]|].
    destruct (leP (55 / 10) (y + a)) as [_|N]; [|lra]. rewrite andb_true_r.
    destruct (ltP (y + a) 15) as [Ls2|Ls2]; cbn [andb].
    + destruct (ltP a (55 / 10)) as [L1|L1]; [apply R2; lra|]. destruct (ltP a 15) as [_|N]; [|lra]. destruct (leP (55 / 10) a) as [_|N]; [|lra]. apply R2; lra.
    + destruct (leP 15 (y + a)) as [_|N]; [|lra]. rewrite orb_true_r. apply R1; lra.
Qed.

(** A mode with width: the line shape is within 3e-4 of the convolution of exp (- u^2) with the Lorentzian of half width a and
    unit area. *)
Theorem C80_line_accuracy : forall x a, 0 < a -> exists k v,
  is_lim (fun T => RInt (fun u => exp (- u ^ 2) * (a / PI / ((x - u) ^ 2 + a ^ 2))) (- T) T) p_infty (Finite k) /\ voigt x a = Some v /\ Rabs (v - k) <= 3 / 10 ^ 4.
Proof.
  intros x a Pa. destruct (conv_lim x a Pa) as [k Hk]. destruct (voigt_region x a Pa) as [z [Ez Hz]]. exists k, (fst z). split; [exact Hk|]. split; [exact Ez|].
  destruct (ga_small (1 / 10 ^ 7) ltac:(lra)) as [S1 [P1 H1]]. destruct (G_near (1 / 10 ^ 6) ltac:(lra)) as [S2 [P2 H2]]. destruct (conv_small a (1 / 10 ^ 6) Pa ltac:(lra)) as [S3 [P3 H3]].
  destruct (proj2 (is_lim_spec (conv x a) p_infty k) Hk (mkposreal (1 / 10 ^ 6) ltac:(lra))) as [S4 H4].
  set (T := S1 + S2 + S3 + Rabs S4 + 1). assert (B4 := Rle_abs S4). assert (B5 := Rabs_pos S4). specialize (H1 T ltac:(unfold T; lra)). specialize (H2 T ltac:(unfold T; lra)). specialize (H3 T ltac:(unfold T; lra)). specialize (H4 T ltac:(unfold T; lra)).
  change (Rabs (conv x a T - k) < 1 / 10 ^ 6) in H4. assert (PT : 0 <= T) by (unfold T; lra). specialize (Hz T PT). assert (Hc := conv_near (a, Rabs x) T Pa PT). cbn [fst] in Hc.
  assert (Ec : fst (H T (a, Rabs x)) = conv x a T). { replace (Rabs x) with (- - Rabs x) by ring. rewrite conv_H by exact Pa. unfold Rabs. destruct (Rcase_abs x); [rewrite Ropp_involutive; reflexivity|apply conv_even; exact Pa]. }
  assert (D1 := Rle_trans _ _ _ (fst_le _) Hz). assert (D2 := Rle_trans _ _ _ (fst_le _) Hc). cbn [fst Cminus Cplus Copp] in D1, D2. rewrite Ec in D2.
  assert (Er : err T <= 284 / 10 ^ 6 + 4 / 10 ^ 6). { unfold err. destruct sqrtpi as [[Ls Us] _]. assert (1 - 2 / sqrt PI * G T <= 12 / 10 ^ 7); [|lra]. apply (Rmult_le_reg_r (sqrt PI)); [lra|]. replace ((1 - 2 / sqrt PI * G T) * sqrt PI) with (sqrt PI - 2 * G T) by (field; lra). lra. }
  assert (D1' : Rabs (fst z + - fst (W T (a, Rabs x))) <= 288 / 10 ^ 6) by lra. assert (D2' : Rabs (conv x a T + - fst (W T (a, Rabs x))) <= 1 / 10 ^ 6) by lra.
  set (w := fst (W T (a, Rabs x))) in *. clearbody w. apply Rabs_le_between in D1'. apply Rabs_le_between in D2'. apply Rabs_def2 in H4. apply Rabs_le. lra.
Qed.
Print Assumptions C80_line_accuracy.
Example C80_line_accuracy_case : 0 < 1 / 2. Proof. lra. Qed.

(** C61: what the resolution matrix means. *)
From Coq Require Import String List ZArith Reals Lra Lia Psatz Bool.
From Verif Require Import Base MatInv TasModel TasProof TasWide TasVar TasCase TasProps.
Import ListNotations.
Local Open Scope R_scope.

(** Momentum and energy transfer when ki is changed by (d0, d1, d2) and kf by (d3, d4, d5): along ki and kf, across in the plane,
    and up.  [a] is the angle from ki to kf.  The momentum is given along the nominal Q, across it in the plane, and up. *)
Definition transfer (ki kf a : R) (d : vec) : vec := fun i =>
  let x := ki + d 0%nat - ((kf + d 3%nat) * cos a - d 4%nat * sin a) in
  let y := d 1%nat - ((kf + d 3%nat) * sin a + d 4%nat * cos a) in
  let x0 := ki - kf * cos a in let y0 := - (kf * sin a) in
  let q := sqrt (x0 ^ 2 + y0 ^ 2) in
  match i with
  | 0%nat => (x * x0 + y * y0) / q
  | 1%nat => (y * x0 - x * y0) / q
  | 2%nat => d 2%nat - d 5%nat
  | _ => 2072 / 1000 * ((ki + d 0%nat) ^ 2 + d 1%nat ^ 2 + d 2%nat ^ 2 - ((kf + d 3%nat) ^ 2 + d 4%nat ^ 2 + d 5%nat ^ 2))
  end.
Definition only (j : nat) (s : R) : vec := fun k => if Nat.eqb k j then s else 0.
(** J is the derivative of the transfer with respect to the two wavevectors. *)
Definition jacobian (ki kf a : R) (J : mat) : Prop := forall i j, (i < 4)%nat -> (j < 6)%nat -> derivable_pt_lim (fun s => transfer ki kf a (only j s) i) 0 (J i j).

Lemma quad_deriv f a b c : (forall s, f s = a + b * s + c * s * s) -> derivable_pt_lim f 0 b.
Proof.
  intros H e He. assert (C : 0 < Rabs c + 1) by (assert (X := Rabs_pos c); lra). assert (D : 0 < e / (Rabs c + 1)) by (now apply Rdiv_lt_0_compat). exists (mkposreal _ D). intros h Nh Lh. simpl in Lh.
  rewrite !H. replace ((a + b * (0 + h) + c * (0 + h) * (0 + h) - (a + b * 0 + c * 0 * 0)) / h - b) with (c * h) by (field; auto). rewrite Rabs_mult.
  assert (X := Rabs_pos c). assert (Y := Rabs_pos h). assert (Z : Rabs h * (Rabs c + 1) < e). { apply (Rmult_lt_compat_r _ _ _ C) in Lh. unfold Rdiv in Lh. rewrite Rmult_assoc, Rinv_l, Rmult_1_r in Lh by lra. auto. }
  nra.
Qed.
Lemma jac_B g : good_geom g -> jacobian (g_ki g) (g_kf g) (g_2t g) (Bm g).
Proof.
  intros G. destruct G as [Pi Pf Pq _ _ _ _ _ Hc Hs Ht]. set (a := g_2t g) in *. set (ki := g_ki g) in *. set (kf := g_kf g) in *. set (q := g_q g) in *.
  assert (Q : sqrt ((ki - kf * cos a) ^ 2 + (- (kf * sin a)) ^ 2) = q).
  { rewrite <- Hc. replace (- (kf * sin a)) with (q * sin (g_phi g)) by (rewrite Hs; ring). replace ((q * cos (g_phi g)) ^ 2 + (q * sin (g_phi g)) ^ 2) with (q * q * (sin (g_phi g) ^ 2 + cos (g_phi g) ^ 2)) by ring.
    assert (X := sin2_cos2 (g_phi g)). unfold Rsqr in X. replace (sin (g_phi g) ^ 2 + cos (g_phi g) ^ 2) with 1 by lra. rewrite Rmult_1_r. apply sqrt_square. lra. }
  assert (C0 : (ki - kf * cos a) / q = cos (g_phi g)) by (rewrite <- Hc; field; lra). assert (S0 : - (kf * sin a) / q = sin (g_phi g)) by (replace (- (kf * sin a)) with (q * sin (g_phi g)) by (rewrite Hs; ring); field; lra).
  intros i j Li Lj. unfold transfer. cbv zeta. rewrite Q. unfold Bm. cbv zeta. fold a ki kf. rewrite cos_minus, sin_minus. rewrite <- C0, <- S0. unfold CONVERT2.
  assert (Nq : q <> 0) by lra.
  do 4 (destruct i as [|i]; [do 6 (destruct j as [|j]; [unfold mx; cbn [nth];
    (match goal with |- derivable_pt_lim ?f 0 ?b => first
      [ apply (quad_deriv f (f 0) b 0); intros s; unfold only; cbn [Nat.eqb]; field; exact Nq
      | apply (quad_deriv f (f 0) b 0); intros s; unfold only; cbn [Nat.eqb]; ring
      | apply (quad_deriv f (f 0) b (2072 / 1000)); intros s; unfold only; cbn [Nat.eqb]; field
      | apply (quad_deriv f (f 0) b (- (2072 / 1000))); intros s; unfold only; cbn [Nat.eqb]; field ] end)|]); lia|]). lia.
Qed.
Lemma jac_unique ki kf a J J' : jacobian ki kf a J -> jacobian ki kf a J' -> eqm 4 6 J J'.
Proof. intros H H' i j Li Lj. eapply uniqueness_limite; [apply H|apply H']; auto. Qed.

(** One minute of arc, full width at half maximum, as a standard deviation in radians; a negative collimation is a guide. *)
Definition minute : R := PI / (180 * 60) / sqrt (8 * ln 2).
Definition divergence (ki h : R) : R := (if Rlt_dec h 0 then - h * 6 * (2 * PI / ki) / (427 / 1000) / sqrt 3 else h) * minute.
(** Angles of a ray: 0, 1 in the plane before and after the monochromator, 2, 3 vertically, 4, 5 and 6, 7 before and after the
    analyzer.  What they mean for ki and kf. *)
Definition deviation (ki kf thm tha : R) (x : vec) : vec :=
  fun i => nth i [ki * (x 0%nat - x 1%nat) / (2 * tan thm); ki * x 1%nat; ki * x 3%nat; kf * (x 4%nat - x 5%nat) / (2 * tan tha); kf * x 4%nat; kf * x 6%nat] 0.
Definition collimation (ki : R) (t : tas) (x : vec) : R :=
  let a i := divergence ki (t_hcol t i) in let b i := divergence ki (t_vcol t i) in
  (x 0%nat / a 0%nat) ^ 2 + (x 1%nat / a 1%nat) ^ 2 + (x 2%nat / b 0%nat) ^ 2 + (x 3%nat / b 1%nat) ^ 2 +
  (x 4%nat / a 2%nat) ^ 2 + (x 5%nat / a 3%nat) ^ 2 + (x 6%nat / b 2%nat) ^ 2 + (x 7%nat / b 3%nat) ^ 2.
(** The block of a crystal that reflects the ray: its orientation in the plane and vertically. *)
Definition bent_h (x : vec) (i : nat) : R := (x i + x (S i)) / 2.
Definition bent_v (th : R) (x : vec) (i : nat) : R := (x i - x (S i)) / (2 * sin th).
Definition spread (em emv ea eav o0 o1 o2 o3 : R) : R := (o0 / (em * minute)) ^ 2 + (o1 / (emv * minute)) ^ 2 + (o2 / (ea * minute)) ^ 2 + (o3 / (eav * minute)) ^ 2.
Definition sample_spread (t : tas) (q : R) (y : vec) : R :=
  match s_mosaic t with
  | None => 0
  | Some m => (q * (m * minute) * y 1%nat) ^ 2 + (q * (match s_vmosaic t with Some v => v | None => m end * minute) * y 2%nat) ^ 2
  end.
Definition twotheta (t : tas) (q w : R) : R := acos ((kin t w ^ 2 + kfin t w ^ 2 - q ^ 2) / (2 * kin t w * kfin t w)) * s_dir t.
Definition theta (x : crystal) (k : R) : R := asin (x_tau x / (2 * k)) * x_dir x.

Lemma minute_eq : minute = CONVERT1.
Proof. unfold minute, CONVERT1. f_equal. field. Qed.
Lemma div_eq ki a : guided ki (fun i => a i * CONVERT1) = fun i => divergence ki (a i).
Proof.
  apply FunctionalExtensionality.functional_extensionality. intros i. unfold guided, divergence. rewrite minute_eq. assert (C := C1_pos).
  destruct (Rlt_dec (a i * CONVERT1) 0), (Rlt_dec (a i) 0); try (exfalso; nra); auto.
  unfold Rdiv. assert (E : / 10 * 60 = 6) by field. rewrite <- E. ring.
Qed.
Section Point.
Context (t : tas) (q w : R) (U : usable t 1) (R : reachable t (q, w)) (HF : (horifoc t <= 0)%Z).
Notation ki := (kin t w). Notation kf := (kfin t w). Notation a := (twotheta t q w). Notation thm := (theta (t_mono t) (kin t w)). Notation tha := (theta (t_ana t) (kfin t w)).
Notation g := (geom_of t q w). Notation v := (next t (start t) w).
Lemma ps_alpha : v_alpha v = fun i => divergence ki (t_hcol t i).
Proof.
  rewrite <- div_eq. unfold next, start. cbn [v_alpha]. f_equal. apply FunctionalExtensionality.functional_extensionality. intros i. destruct (Z.eqb_spec (horifoc t) 1); [lia|]. reflexivity.
Qed.
Lemma ps_beta : v_beta v = fun i => divergence ki (t_vcol t i).
Proof. rewrite <- div_eq. reflexivity. Qed.
Lemma ps_G x : qf 8 (Gm v) x = collimation ki t x.
Proof.
  unfold Gm. rewrite qf_diag, ps_alpha, ps_beta. unfold collimation. cbn [map sum nth]. destruct (next_ok t (start t) w 1 U (proj1 R) (proj1 (start_ok t 1 U))) as [V _]. rewrite ps_alpha, ps_beta in V.
  destruct (V 0%nat ltac:(lia)), (V 1%nat ltac:(lia)), (V 2%nat ltac:(lia)), (V 3%nat ltac:(lia)). field. repeat split; auto.
Qed.
Lemma ps_F x : qf 4 (Fm t) x = spread (x_mosaic (t_mono t)) (if is_num (meth t) 1 || is_str (meth t) "Popovici" then opt (x_mosaic (t_mono t)) (x_vmosaic (t_mono t)) else x_mosaic (t_mono t))
    (x_mosaic (t_ana t)) (opt (x_mosaic (t_ana t)) (x_vmosaic (t_ana t))) (x 0%nat) (x 1%nat) (x 2%nat) (x 3%nat).
Proof.
  unfold Fm. rewrite qf_diag. unfold spread. rewrite minute_eq. cbn [map sum nth]. destruct (mono_eta t 1 U) as (E1 & E2 & E3 & E4).
  assert (X : etamv t = (if is_num (meth t) 1 || is_str (meth t) "Popovici" then opt (x_mosaic (t_mono t)) (x_vmosaic (t_mono t)) else x_mosaic (t_mono t)) * CONVERT1).
  { unfold etamv, etam, opt. destruct (x_vmosaic (t_mono t)), (_ || _)%bool; reflexivity. }
  assert (Y : etaav t = opt (x_mosaic (t_ana t)) (x_vmosaic (t_ana t)) * CONVERT1) by (unfold etaav, etaa, opt; destruct (x_vmosaic (t_ana t)); reflexivity).
  rewrite <- X, <- Y. fold (etam t). fold (etaa t). field. auto.
Qed.
Lemma ps_mos y : qf 4 (mosaic_term t q) y = sample_spread t q y.
Proof.
  unfold mosaic_term, sample_spread. rewrite minute_eq. destruct (s_mosaic t); rewrite qf_diag; cbn [sum nth]; [destruct (s_vmosaic t)|]; ring.
Qed.
Lemma ps_dev x i : (i < 6)%nat -> mulv 8 (Am g) x i = deviation ki kf thm tha x i.
Proof.
  intros L. assert (G := geom_ok t 1 q w U R). destruct (tan_sin_pos _ (gg_cm g G) (gg_sm g G)) as [Tm _]. destruct (tan_sin_pos _ (gg_ca g G) (gg_sa g G)) as [Ta _].
  cbn [g_tm g_ta geom_of] in Tm, Ta. fold thm in Tm. fold tha in Ta.
  unfold mulv, deviation, Am. cbn [g_ki g_kf g_tm g_ta geom_of]. fold thm tha. do 6 (destruct i as [|i]; [unfold mx; cbn [sum nth]; field; auto|]). lia.
Qed.
Lemma ps_C x i : (i < 4)%nat -> mulv 8 (Cm g) x i = nth i [bent_h x 0; bent_v thm x 2; bent_h x 4; bent_v tha x 6] 0.
Proof.
  intros L. assert (G := geom_ok t 1 q w U R). assert (Sm := gg_sm g G). assert (Sa := gg_sa g G). cbn [g_tm g_ta geom_of] in Sm, Sa. fold thm in Sm. fold tha in Sa.
  unfold mulv, Cm. cbn [g_ki g_kf g_tm g_ta geom_of]. fold thm tha. unfold bent_h, bent_v. do 4 (destruct i as [|i]; [unfold mx; cbn [sum nth]; field; auto|]). lia.
Qed.
Lemma ps_J J : jacobian ki kf a J -> eqm 4 6 (Bm g) J.
Proof. intros H. apply jac_unique with ki kf a; auto. apply (jac_B g). now apply geom_ok with 1%nat. Qed.
(** What [2 y.z] is for the deviation of a ray. *)
Lemma ps_dot J x y : jacobian ki kf a J -> dotv 8 (mulv 6 (tr (Am g)) (mulv 4 (tr (Bm g)) y)) x = dotv 4 y (mulv 6 J (deviation ki kf thm tha x)).
Proof.
  intros HJ. rewrite <- dotv_tr. rewrite <- dotv_tr. apply dotv_ext; auto. intros i L. apply mulv_ext with 4%nat; auto; [now apply ps_J|]. intros j Lj. now apply ps_dev.
Qed.
End Point.
Lemma single t q w L0 L1 L2 L3 Lm : usable t 1 -> reachable t (q, w) -> lengths t = Ok (L0, L1, L2, L3, Lm) -> exists sh, sshapes t 0 = Some sh /\ posdef 3 sh /\
  calc_in_Q t [(q, w)] = Ok [resolution_at t (next t (start t) w) (L0, L1, L2, L3, Lm) (geom_of t q w) sh].
Proof.
  intros U R EL. destruct (lengths_ok t 1 U) as [Ls [E L]]. assert (Ls = (L0, L1, L2, L3, Lm)) by congruence. subst Ls. destruct (start_ok t 1 U) as [V O].
  assert (Sok : sample_ok t 1) by apply U. destruct (sshapes_ok t 1 0 Sok ltac:(lia)) as [sh [Es Ps]]. exists sh. split; auto. split; auto.
  unfold calc_in_Q. rewrite EL. simpl bind. unfold loop. rewrite (point_reach t _ _ 0 q w 1 sh U Es V O L R). reflexivity.
Qed.

(** The two energies differ by the energy transfer, and the fixed one is that of kf unless infin is positive. *)
Theorem C61_wavevectors t q w : reachable t (q, w) ->
  2072 / 1000 * (kin t w ^ 2 - kfin t w ^ 2) = w /\ 0 < kin t w /\ 0 < kfin t w /\
  2072 / 1000 * (match t_infin t with Some x => if Rlt_dec 0 x then kin t w else kfin t w | None => kfin t w end) ^ 2 = t_efixed t.
Proof.
  intros (E1 & E2 & _). assert (P1 := k_pos _ E1). assert (P2 := k_pos _ E2). fold (kin t w) in P1. fold (kfin t w) in P2.
  assert (S : forall x, 0 < x -> 2072 / 1000 * sqrt (x / CONVERT2) ^ 2 = x). { intros x X. rewrite <- Rsqr_pow2, Rsqr_sqrt; [unfold CONVERT2; field|]. unfold CONVERT2. lra. }
  assert (S1 := S _ E1). assert (S2 := S _ E2). fold (kin t w) in S1. fold (kfin t w) in S2. unfold energies in *. destruct (t_infin t) as [x|]; cbn [opt] in *.
  - destruct (Rlt_dec 0 x); cbn [fst snd] in *; lra.
  - destruct (Rlt_dec 0 (-1)); [lra|]. cbn [fst snd] in *. lra.
Qed.
Print Assumptions C61_wavevectors.
Example C61_wavevectors_ex : reachable (case 1 None None None None) (5, 2072 / 1000 * (4 * 4 - 9)).
Proof. apply case_reach; try lra. rewrite Rabs_pos_eq by lra. lra. Qed.

(** Cooper and Nathans: the inverse of the resolution matrix is the covariance of the transfer.  For every direction y in
    (Q along, Q across, Q up, energy), [y' M^-1 y] is the largest value of [2 y.z - weight], z the change of the transfer to first
    order that a ray causes, plus the sample mosaic: the mean square of y.z when rays occur with probability exp(-weight / 2).
    The weight of a ray is its angles over the divergences of the collimators, and the orientation of the block that
    reflects it over the mosaic, each squared. *)
Theorem C61_cooper_nathans t q w J : usable t 1 -> reachable t (q, w) -> popovici t = false -> (horifoc t <= 0)%Z ->
  let ki := kin t w in let kf := kfin t w in let thm := theta (t_mono t) ki in let tha := theta (t_ana t) kf in
  let weight x := collimation ki t x +
    spread (x_mosaic (t_mono t)) (if is_str (meth t) "Popovici" then opt (x_mosaic (t_mono t)) (x_vmosaic (t_mono t)) else x_mosaic (t_mono t))
      (x_mosaic (t_ana t)) (opt (x_mosaic (t_ana t)) (x_vmosaic (t_ana t)))
      (bent_h x 0) (bent_v thm x 2) (bent_h x 4) (bent_v tha x 6) in
  jacobian ki kf (twotheta t q w) J ->
  exists r M C, calc_in_Q t [(q, w)] = Ok [Some (r, M)] /\ inverse 4 C M /\ forall y,
    (forall x, 2 * dotv 4 y (mulv 6 J (deviation ki kf thm tha x)) - weight x + sample_spread t q y <= qf 4 C y) /\
    exists x, 2 * dotv 4 y (mulv 6 J (deviation ki kf thm tha x)) - weight x + sample_spread t q y = qf 4 C y.
Proof.
  intros U R P HF ki kf thm tha weight HJ. subst tha thm kf ki. destruct (lengths_ok t 1 U) as [[[[[L0 L1] L2] L3] Lm] [EL (N0 & N1 & N2 & N3 & Nm)]].
  destruct (single t q w L0 L1 L2 L3 Lm U R EL) as (sh & Es & Ps & Ec). set (v := next t (start t) w) in *. set (g := geom_of t q w) in *.
  assert (V : vars_ok v) by (apply (next_ok t (start t) w 1 U (proj1 R)); now apply start_ok with 1%nat). assert (G : good_geom g) by (now apply geom_ok with 1%nat).
  assert (K : x_tau (t_ana t) / 2 < g_kf g) by (destruct R as (_ & _ & _ & Ka & _); unfold g, geom_of; simpl; lra).
  assert (PH := posdef_Hc t v g 1 U V). destruct (minv_posdef 8 _ PH) as [I [EI [II PI]]].
  assert (EN : Ninv t v (L0, L1, L2, L3) g sh = Some (mul 8 (Am g) (mul 8 I (tr (Am g))), H_cooper t v g)).
  { unfold Ninv. rewrite P, EI. cbn [ob]. destruct (Z.ltb_spec 0 (horifoc t)); [lia|reflexivity]. }
  destruct (at_spec t v L0 L1 L2 L3 Lm g sh 1 _ _ U V G Ps N0 N1 N2 N3 Nm K EN) as (r & M & ER & PC & IC).
  eexists r, M, _. split; [rewrite Ec, ER; reflexivity|]. split; [exact IC|]. intros y. change (g_q g) with q. rewrite qf_add, (ps_mos t q). unfold Minv.
  rewrite qf_congr, qf_congr. set (u := mulv 6 (tr (Am g)) (mulv 4 (tr (Bm g)) y)). destruct (var_max 8 _ _ u PH II) as [X1 X2].
  assert (W : forall x, qf 8 (H_cooper t v g) x = weight x).
  { intros x. unfold H_cooper, weight. rewrite qf_add. unfold v at 1. rewrite (ps_G t q w U R HF). f_equal. change (mul 4 (tr (Cm g)) (mul 4 (Fm t) (Cm g))) with (mul 4 (tr (Cm g)) (mul 4 (Fm t) (tr (tr (Cm g))))). rewrite qf_congr.
    rewrite (ps_F t U). change (tr (tr (Cm g))) with (Cm g). unfold g. rewrite !(ps_C t q w U R) by lia. cbn [nth]. unfold popovici in P. apply orb_false_iff in P. destruct P as [P1 P2]. rewrite P1. cbn [orb]. reflexivity. }
  split; [intros x; specialize (X1 x)|exists (mulv 8 I u)]; rewrite W in *; unfold u, g in *; rewrite (ps_dot t q w U R J) in * by auto; lra.
Qed.
Print Assumptions C61_cooper_nathans.
Example C61_cooper_nathans_ex : let t := case 1 None None (Some 10) None in exists q w J,
  usable t 1 /\ reachable t (q, w) /\ popovici t = false /\ (horifoc t <= 0)%Z /\ jacobian (kin t w) (kfin t w) (twotheta t q w) J.
Proof.
  intros t. assert (U : usable t 1) by (apply case_usable; auto; lra). assert (F := case_points_ok 1 None None (Some 10) None). inversion F as [|? ? R F']; subst.
  eexists _, _, (Bm (geom_of t _ _)). split; [exact U|]. split; [exact R|]. split; [reflexivity|]. split; [cbn; lia|]. apply (jac_B (geom_of t _ _)). now apply geom_ok with 1%nat.
Qed.

(** Popovici: a ray is given by where it passes the guide (0, 1: across, up), the monochromator (2, 3, 4: into the crystal, along
    it, up), the sample (5, 6, 7), the analyzer (8, 9, 10) and the detector (11, 12); its angles follow from the distances. *)
Definition angles (L0 L1 L2 L3 thm tha ths : R) (x : vec) : vec := fun i => nth i
  [(- x 0%nat - x 2%nat * cos thm + x 3%nat * sin thm) / L0;
   (x 2%nat * cos thm + x 3%nat * sin thm + x 5%nat * sin ths + x 6%nat * cos ths) / L1;
   (x 4%nat - x 1%nat) / L0;
   (x 7%nat - x 4%nat) / L1;
   (x 5%nat * sin ths - x 6%nat * cos ths - x 8%nat * cos tha + x 9%nat * sin tha) / L2;
   (x 8%nat * cos tha + x 9%nat * sin tha + x 11%nat) / L3;
   (x 10%nat - x 7%nat) / L2;
   (x 12%nat - x 10%nat) / L3] 0.
(** The mean square of a uniform distribution over a width; 1 if no width is given. *)
Definition uniform (o : option R) : R := match o with Some x => x ^ 2 / 12 | None => 1 end.
Definition win (o : option window) (f : window -> option R) : R := match o with Some w => uniform (f w) | None => 1 end.
(** Positions over the sizes; Z is the inverse of the shape of the sample, and the sample is turned by psi from the frame of Q. *)
Definition positions (t : tas) (Z : mat) (psi : R) (x : vec) : R :=
  x 0%nat ^ 2 / win (t_guide t) w_width + x 1%nat ^ 2 / win (t_guide t) w_height +
  (x 2%nat ^ 2 / uniform (x_depth (t_mono t)) + x 3%nat ^ 2 / uniform (x_width (t_mono t)) + x 4%nat ^ 2 / uniform (x_height (t_mono t))) +
  qf 3 Z (fun i => nth i [x 5%nat * cos psi - x 6%nat * sin psi; x 5%nat * sin psi + x 6%nat * cos psi; x 7%nat] 0) +
  (x 8%nat ^ 2 / uniform (x_depth (t_ana t)) + x 9%nat ^ 2 / uniform (x_width (t_ana t)) + x 10%nat ^ 2 / uniform (x_height (t_ana t))) +
  (x 11%nat ^ 2 / win (t_detector t) w_width + x 12%nat ^ 2 / win (t_detector t) w_height).
(** The mean squares of the coordinates in the sample: from its three sizes if all are given, else from its shape, else 1.  The
    same divisor serves all three directions: for a cylinder also its height is divided by 16, not 12. *)
Definition extent (t : tas) (sh : mat) : Prop :=
  let f := if match s_type t with Some s => String.eqb s "cylindrical" | None => false end then 16 else 12 in
  match s_width t, s_depth t, s_height t with
  | Some w, Some d, Some h => eqm 3 3 sh (mx [[d * d / f; 0; 0]; [0; w * w / f; 0]; [0; 0; h * h / f]])
  | _, _, _ => match s_shape t with
               | None => eqm 3 3 sh idm
               | Some (S2 m) => eqm 3 3 sh (fun i j => m i j / f)
               | Some (S3 l) => match l with m :: _ => eqm 3 3 sh (fun i j => m i j / f) | [] => False end
               end
  end.
Lemma extent_spec t sh sh' : extent t sh -> sshapes t 0 = Some sh' -> eqm 3 3 sh sh'.
Proof.
  unfold extent, sshapes, factor. cbv zeta. assert (F : match s_type t with Some s => if String.eqb s "cylindrical" then 16 else 12 | None => 12 end = if match s_type t with Some s => String.eqb s "cylindrical" | None => false end then 16 else 12) by (destruct (s_type t); reflexivity).
  rewrite F. clear F. set (f := if match s_type t with Some s => String.eqb s "cylindrical" | None => false end then 16 else 12). intros H E.
  assert (K : (match s_shape t with None => eqm 3 3 sh idm | Some (S2 m) => eqm 3 3 sh (fun i j => m i j / f) | Some (S3 l) => match l with m :: _ => eqm 3 3 sh (fun i j => m i j / f) | [] => False end end) ->
    (match s_shape t with None => Some idm | Some (S2 m) => Some (fun i j => m i j / f) | Some (S3 l) => match nth_error l 0 with Some m => Some (fun i j => m i j / f) | None => None end end = Some sh') -> eqm 3 3 sh sh').
  { destruct (s_shape t) as [[m|[|m l]]|]; cbn [nth_error]; intros A B; try contradiction; injection B as <-; exact A. }
  destruct (s_width t); [|now apply K]. destruct (s_depth t); [|now apply K]. destruct (s_height t); [|now apply K]. injection E as <-. apply eqm_trans with (1 := H).
  intros i j Li Lj. unfold mx, diag. do 3 (destruct i as [|i]; [do 3 (destruct j as [|j]; [cbn; try reflexivity; unfold Rdiv; ring|]); lia|]). lia.
Qed.
(** The angle from ki to Q. *)
Definition is_phi (ki kf a phi : R) : Prop := exists s, 0 < s /\ s * cos phi = ki - kf * cos a /\ s * sin phi = - (kf * sin a).

Lemma qf_diag_inv n d x : (forall i, (i < n)%nat -> 0 < nth i d 0) -> qf n (diag (map Rinv d)) x = sum n (fun i => x i ^ 2 / nth i d 0).
Proof.
  intros H. rewrite qf_diag. apply sum_ext. intros i L. assert (P := H i L). rewrite (nth_indep _ 0 (/ 0)).
  - rewrite map_nth. unfold Rdiv. ring.
  - rewrite map_length. destruct (le_lt_dec (length d) i); auto. exfalso. rewrite nth_overflow in P; auto. lra.
Qed.
Lemma rot_inverse psi : let rot := mx [[cos psi; sin psi; 0]; [- sin psi; cos psi; 0]; [0; 0; 1]] in inverse 3 rot (tr rot).
Proof.
  cbv zeta. assert (P := sin2_cos2 psi). unfold Rsqr in P. split; intros i j Li Lj; unfold mul, tr, mx, idm; do 3 (destruct i as [|i]; [do 3 (destruct j as [|j]; [cbn [sum nth Nat.eqb]; lra|]); lia|]); lia.
Qed.
Lemma inverse_sandwich n A A' M N : inverse n A A' -> inverse n M N -> inverse n (mul n (mul n A M) A') (mul n (mul n A N) A').
Proof.
  intros [A1 A2] [M1 M2]. assert (X : forall P Q, eqm n n (mul n P Q) idm -> eqm n n (mul n (mul n (mul n A P) A') (mul n (mul n A Q) A')) idm); [|split; auto].
  intros P Q H. eapply eqm_trans; [apply mul_assoc|]. 
  eapply eqm_trans; [apply mul_ext; [apply eqm_refl|]|].
  { eapply eqm_trans; [apply eqm_sym, (mul_assoc n n n n)|]. apply mul_ext; [|apply eqm_refl]. eapply eqm_trans; [apply eqm_sym, (mul_assoc n n n n)|]. eapply eqm_trans; [apply mul_ext; [exact A2|apply eqm_refl]|apply mul_id_l]. }
  eapply eqm_trans; [apply mul_assoc|]. eapply eqm_trans; [apply mul_ext; [apply eqm_refl|]|].
  { eapply eqm_trans; [apply eqm_sym, (mul_assoc n n n n)|]. eapply eqm_trans; [apply mul_ext; [exact H|apply eqm_refl]|apply mul_id_l]. }
  exact A1.
Qed.
Lemma win_eq o : window_ok o -> exists d, (match o with Some w => diag [size (w_width w); size (w_height w)] | None => diag [1; 1] end) = diag d /\ d = [win o w_width; win o w_height] /\ Forall (fun x => 0 < x) d.
Proof.
  destruct o as [w|]; simpl; intros H; eexists; (split; [reflexivity|]); (split; [reflexivity|]); repeat constructor; try lra; apply size_pos; tauto.
Qed.
Lemma all_pos d : Forall (fun x => 0 < x) d -> forall i, (i < length d)%nat -> 0 < nth i d 0.
Proof. intros H i L. rewrite Forall_forall in H. apply H. now apply nth_In. Qed.
Lemma inv_diag d : Forall (fun x => 0 < x) d -> inverse (length d) (diag d) (diag (map Rinv d)).
Proof. intros H. apply inverse_diag. intros i L. assert (X := all_pos d H i L). lra. Qed.
Lemma qf_shift n M x y : (forall i, (i < n)%nat -> x i = y i) -> qf n M x = qf n M y.
Proof. intros. apply qf_ext; auto. apply eqm_refl. Qed.
Lemma Sinv_form t g n sh Z S x : usable t n -> posdef 3 sh -> inverse 3 sh Z -> inverse 13 (Sinv t g sh) S -> qf 13 S x = positions t Z (g_2t g / 2 - g_phi g) x.
Proof.
  intros U Ps IZ IS. set (psi := g_2t g / 2 - g_phi g). set (rot := mx [[cos psi; sin psi; 0]; [- sin psi; cos psi; 0]; [0; 0; 1]]).
  destruct U as (_ & M & A & W1 & _ & W3 & _). destruct (win_eq _ W1) as (d1 & E1 & F1 & P1). destruct (win_eq _ W3) as (d5 & E5 & F5 & P5).
  assert (X : forall c, crystal_ok c -> Forall (fun x => 0 < x) [uniform (x_depth c); uniform (x_width c); uniform (x_height c)]).
  { intros c (_ & _ & _ & _ & B1 & B2 & B3 & _). repeat constructor; now apply size_pos. }
  assert (Pm := X _ M). assert (Pa := X _ A). set (d2 := [uniform (x_depth (t_mono t)); uniform (x_width (t_mono t)); uniform (x_height (t_mono t))]) in *. set (d4 := [uniform (x_depth (t_ana t)); uniform (x_width (t_ana t)); uniform (x_height (t_ana t))]) in *.
  assert (I : inverse 13 (Sinv t g sh) (blk 2 (diag (map Rinv d1)) (blk 3 (diag (map Rinv d2)) (blk 3 (mul 3 (mul 3 rot Z) (tr rot)) (blk 3 (diag (map Rinv d4)) (diag (map Rinv d5))))))).
  { unfold Sinv, bshape, dshape. rewrite E1, E5. apply (inverse_blk 2 11); [subst d1; now apply (inv_diag [_; _])|]. apply (inverse_blk 3 8); [now apply (inv_diag [_; _; _])|].
    apply (inverse_blk 3 5); [apply (inverse_sandwich 3 rot (tr rot)); auto; apply rot_inverse|]. apply (inverse_blk 3 2); [now apply (inv_diag [_; _; _])|subst d5; now apply (inv_diag [_; _])]. }
  assert (ES : eqm 13 13 S (blk 2 (diag (map Rinv d1)) (blk 3 (diag (map Rinv d2)) (blk 3 (mul 3 (mul 3 rot Z) (tr rot)) (blk 3 (diag (map Rinv d4)) (diag (map Rinv d5))))))).
  { destruct IS as [S1 S2], I as [I1 I2]. now apply inverse_unique with (Sinv t g sh). }
  rewrite (qf_ext 13 _ _ x x ES) by auto. rewrite (qf_blk 2 11), (qf_blk 3 8), (qf_blk 3 5), (qf_blk 3 2).
  rewrite (qf_diag_inv 2 d1), (qf_diag_inv 3 d2), (qf_diag_inv 3 d4), (qf_diag_inv 2 d5); try (intros i L; apply all_pos; auto; subst d1 d5; auto; fail).
  assert (ER : forall z, qf 3 (mul 3 (mul 3 rot Z) (tr rot)) z = qf 3 Z (mulv 3 (tr rot) z)). { intros z. rewrite <- qf_congr. apply qf_ext; auto. apply mul_assoc. }
  rewrite ER. unfold positions. set (zz := fun i => nth i [x 5%nat * cos psi - x 6%nat * sin psi; x 5%nat * sin psi + x 6%nat * cos psi; x 7%nat] 0). subst d1 d5. unfold d2, d4. cbn [sum nth Nat.add].
  match goal with |- context [qf 3 Z (mulv 3 (tr rot) ?z)] => rewrite (qf_shift 3 Z (mulv 3 (tr rot) z) zz) end; [ring|].
  intros i L. unfold mulv, tr, rot, mx, zz. do 3 (destruct i as [|i]; [cbn [sum nth Nat.add]; ring|]). lia.
Qed.
Lemma phi_unique ki kf a p p' : is_phi ki kf a p -> is_phi ki kf a p' -> cos p = cos p' /\ sin p = sin p'.
Proof.
  intros (s & Ps & C & S) (s' & Ps' & C' & S'). assert (E : s = s').
  { assert (X := sin2_cos2 p). assert (Y := sin2_cos2 p'). unfold Rsqr in X, Y. assert (Q : s * s = s' * s').
    { transitivity ((s * cos p) * (s * cos p) + (s * sin p) * (s * sin p)); [transitivity (s * s * (sin p * sin p + cos p * cos p)); [rewrite X; ring|ring]|].
      rewrite C, S, <- C', <- S'. transitivity (s' * s' * (sin p' * sin p' + cos p' * cos p')); [ring|rewrite Y; ring]. }
    nra. }
  subst s'. split; apply (Rmult_eq_reg_l s); lra.
Qed.
Lemma positions_ext t Z p p' x : cos p = cos p' -> sin p = sin p' -> positions t Z p x = positions t Z p' x.
Proof. intros H K. unfold positions. now rewrite H, K. Qed.

(** Distances: those given, if the method is given as the number 1; else 1. *)
Definition distances (t : tas) (L0 L1 L2 L3 : R) : Prop :=
  (exists r, t_method t = Some (MNum 1) /\ t_arms t = Some (L0 :: L1 :: L2 :: L3 :: r)) \/
  ((t_method t <> Some (MNum 1) \/ t_arms t = None) /\ L0 = 1 /\ L1 = 1 /\ L2 = 1 /\ L3 = 1).
Lemma distances_spec t L0 L1 L2 L3 : distances t L0 L1 L2 L3 -> exists Lm, lengths t = Ok (L0, L1, L2, L3, Lm).
Proof.
  intros [(r & Em & Ea)|([Em|Ea] & -> & -> & -> & ->)]; unfold lengths, meth.
  - rewrite Em, Ea. simpl. destruct r; eauto.
  - destruct (t_arms t); [|eauto]. destruct (t_method t) as [[z|s]|]; simpl; eauto. destruct (Z.eqb_spec z 1) as [->|]; [congruence|eauto].
  - rewrite Ea. eauto.
Qed.
(** Popovici: as above, for rays given by positions; a ray reflects from a block that is tilted by the curvature of the crystal,
    and the positions are weighted by the sizes of guide, crystals, sample and detector. *)
Theorem C61_popovici t q w J L0 L1 L2 L3 sh Z phi : usable t 1 -> reachable t (q, w) -> popovici t = true -> (horifoc t <= 0)%Z -> distances t L0 L1 L2 L3 -> extent t sh -> inverse 3 sh Z ->
  let ki := kin t w in let kf := kfin t w in let thm := theta (t_mono t) ki in let tha := theta (t_ana t) kf in let a := twotheta t q w in
  let weight x :=
    let y := angles L0 L1 L2 L3 thm tha (a / 2) x in
    collimation ki t y +
    spread (x_mosaic (t_mono t)) (if is_num (meth t) 1 then opt (x_mosaic (t_mono t)) (x_vmosaic (t_mono t)) else x_mosaic (t_mono t))
      (x_mosaic (t_ana t)) (opt (x_mosaic (t_ana t)) (x_vmosaic (t_ana t)))
      (bent_h y 0 - x 3%nat / (opt (10 ^ 6) (x_rh (t_mono t)) * x_dir (t_mono t))) (bent_v thm y 2 - x 4%nat / (opt (10 ^ 6) (x_rv (t_mono t)) * x_dir (t_mono t)))
      (bent_h y 4 - x 9%nat / (opt (10 ^ 6) (x_rh (t_ana t)) * x_dir (t_ana t))) (bent_v tha y 6 - x 10%nat / (opt (10 ^ 6) (x_rv (t_ana t)) * x_dir (t_ana t))) +
    positions t Z (a / 2 - phi) x in
  is_phi ki kf a phi -> jacobian ki kf a J ->
  exists r M C, calc_in_Q t [(q, w)] = Ok [Some (r, M)] /\ inverse 4 C M /\ forall y,
    (forall x, 2 * dotv 4 y (mulv 6 J (deviation ki kf thm tha (angles L0 L1 L2 L3 thm tha (a / 2) x))) - weight x + sample_spread t q y <= qf 4 C y) /\
    exists x, 2 * dotv 4 y (mulv 6 J (deviation ki kf thm tha (angles L0 L1 L2 L3 thm tha (a / 2) x))) - weight x + sample_spread t q y = qf 4 C y.
Proof.
  intros U R P HF Edist Ex IZ0 ki kf thm tha a weight Hphi HJ. destruct (distances_spec t L0 L1 L2 L3 Edist) as [Lm EL]. subst a tha thm kf ki.
  destruct (lengths_ok t 1 U) as [Ls [EL' Lnz]]. assert (Ls = (L0, L1, L2, L3, Lm)) by congruence. subst Ls. destruct Lnz as (N0 & N1 & N2 & N3 & Nm).
  destruct (single t q w L0 L1 L2 L3 Lm U R EL) as (sh' & Es & Ps & Ec). assert (Xs := extent_spec t sh sh' Ex Es). assert (IZ : inverse 3 sh' Z) by (destruct IZ0 as [Z1 Z2]; split; [apply eqm_trans with (2 := Z1)|apply eqm_trans with (2 := Z2)]; apply mul_ext; try apply eqm_refl; now apply eqm_sym). clear sh Ex IZ0 Xs. rename sh' into sh. set (v := next t (start t) w) in *. set (g := geom_of t q w) in *.
  assert (V : vars_ok v) by (apply (next_ok t (start t) w 1 U (proj1 R)); now apply start_ok with 1%nat). assert (G : good_geom g) by (now apply geom_ok with 1%nat).
  assert (K : x_tau (t_ana t) / 2 < g_kf g) by (destruct R as (_ & _ & _ & Ka & _); unfold g, geom_of; simpl; lra).
  destruct (minv_posdef 13 _ (posdef_Sinv t g 1 sh U Ps)) as [S [ES [IS PS]]].
  set (T := Tm L0 L1 L2 L3 v g). set (D := Dm L0 L1 L2 L3 g).
  destruct (FT 13 4 (Fm t) T (posdef_F t 1 U)) as [F1 F2]. assert (PK := posdef_add_nonneg 13 _ _ PS F1 F2). destruct (minv_posdef 13 _ PK) as [Ki [EK [IK PKi]]].
  assert (RD := rank_D L0 L1 L2 L3 g G N0 N1 N2 N3). fold D in RD. assert (PD := posdef_congr 8 13 _ _ PKi RD). destruct (minv_posdef 8 _ PD) as [H [EH [IH PH]]].
  assert (PHG : posdef 8 (addm H (Gm v))) by (apply posdef_add_nonneg; auto; [apply symm_diag|intros x; apply posdef_nonneg; now apply posdef_G]).
  destruct (minv_posdef 8 _ PHG) as [I [EI [II PI]]].
  assert (EN : Ninv t v (L0, L1, L2, L3) g sh = Some (mul 8 (Am g) (mul 8 I (tr (Am g))), addm H (Gm v))).
  { unfold Ninv. rewrite P. unfold HG_popovici. rewrite ES. cbn [ob]. fold T. rewrite EK. cbn [ob]. fold D. rewrite EH. cbn [ob]. rewrite EI. reflexivity. }
  destruct (at_spec t v L0 L1 L2 L3 Lm g sh 1 _ _ U V G Ps N0 N1 N2 N3 Nm K EN) as (r & M & ER & PC & IC).
  eexists r, M, _. split; [rewrite Ec, ER; reflexivity|]. split; [exact IC|]. intros y. change (g_q g) with q. rewrite qf_add, (ps_mos t q). unfold Minv.
  rewrite qf_congr, qf_congr. set (u := mulv 6 (tr (Am g)) (mulv 4 (tr (Bm g)) y)). destruct (var_max 8 _ _ u PHG II) as [X1 X2].
  destruct (constrained 8 13 _ Ki D _ H PK IK PKi eq_refl PD IH) as [Y1 Y2].
  assert (ED : forall x i, (i < 8)%nat -> mulv 13 D x i = angles L0 L1 L2 L3 (theta (t_mono t) (kin t w)) (theta (t_ana t) (kfin t w)) (twotheta t q w / 2) x i).
  { intros x i L. unfold mulv, D, Dm, angles. cbv zeta. unfold g. cbn [g_tm g_ta g_2t geom_of]. fold (theta (t_mono t) (kin t w)) (theta (t_ana t) (kfin t w)) (twotheta t q w).
    do 8 (destruct i as [|i]; [unfold mx; cbn [sum nth]; field; auto|]). lia. }
  assert (Sm := gg_sm g G). assert (Sa := gg_sa g G). unfold g in Sm, Sa. cbn [g_tm g_ta geom_of] in Sm, Sa. fold (theta (t_mono t) (kin t w)) in Sm. fold (theta (t_ana t) (kfin t w)) in Sa.
  destruct V as (Va & V1 & V2 & V3 & V4). 
  assert (W : forall x, qf 13 (addm S (mul 4 (tr T) (mul 4 (Fm t) T))) x + qf 8 (Gm v) (mulv 13 D x) = weight x).
  { intros x. unfold weight. cbv zeta. rewrite qf_add. rewrite (Sinv_form t g 1 sh Z S x U Ps IZ IS).
    assert (Ep : positions t Z (g_2t g / 2 - g_phi g) x = positions t Z (twotheta t q w / 2 - phi) x).
    { destruct (phi_unique (kin t w) (kfin t w) (twotheta t q w) (g_phi g) phi) as [Ec1 Ec2]; [exists q; split; [apply (gg_q g G)|]; split; [apply (gg_cos g G)|exact (eq_trans (gg_sin g G) (eq_sym (Ropp_mult_distr_l _ _)))]|exact Hphi|].
      apply positions_ext; [rewrite !cos_minus|rewrite !sin_minus]; rewrite Ec1, Ec2; reflexivity. }
    rewrite Ep. unfold v at 1. rewrite (ps_G t q w U R HF).
    change (mul 4 (tr T) (mul 4 (Fm t) T)) with (mul 4 (tr T) (mul 4 (Fm t) (tr (tr T)))). rewrite qf_congr. change (tr (tr T)) with T. rewrite (ps_F t U).
    assert (EC : collimation (kin t w) t (mulv 13 D x) = collimation (kin t w) t (angles L0 L1 L2 L3 (theta (t_mono t) (kin t w)) (theta (t_ana t) (kfin t w)) (twotheta t q w / 2) x)) by (unfold collimation; rewrite !ED by lia; reflexivity).
    rewrite EC. assert (EM : is_num (meth t) 1 || is_str (meth t) "Popovici" = is_num (meth t) 1).
    { unfold popovici in P. destruct (meth t) as [z|s]; simpl in *; [now rewrite orb_false_r|]. apply String.eqb_eq in P. now subst s. }
    rewrite EM. set (y0 := angles L0 L1 L2 L3 (theta (t_mono t) (kin t w)) (theta (t_ana t) (kfin t w)) (twotheta t q w / 2) x).
    assert (ET : forall i, (i < 4)%nat -> mulv 13 T x i = nth i [bent_h y0 0 - x 3%nat / (opt (10 ^ 6) (x_rh (t_mono t)) * x_dir (t_mono t)); bent_v (theta (t_mono t) (kin t w)) y0 2 - x 4%nat / (opt (10 ^ 6) (x_rv (t_mono t)) * x_dir (t_mono t));
      bent_h y0 4 - x 9%nat / (opt (10 ^ 6) (x_rh (t_ana t)) * x_dir (t_ana t)); bent_v (theta (t_ana t) (kfin t w)) y0 6 - x 10%nat / (opt (10 ^ 6) (x_rv (t_ana t)) * x_dir (t_ana t))] 0).
    { intros i L. unfold mulv, T, Tm, y0, bent_h, bent_v, angles. cbv zeta. unfold g, v in *. cbn [g_tm g_ta g_2t geom_of v_mrh v_mrv v_arh v_arv next start] in *. fold (theta (t_mono t) (kin t w)) (theta (t_ana t) (kfin t w)) (twotheta t q w).
      set (rmh := opt (10 ^ 6) (x_rh (t_mono t)) * x_dir (t_mono t)) in *. set (rmv := opt (10 ^ 6) (x_rv (t_mono t)) * x_dir (t_mono t)) in *. set (rah := opt (10 ^ 6) (x_rh (t_ana t)) * x_dir (t_ana t)) in *. set (rav := opt (10 ^ 6) (x_rv (t_ana t)) * x_dir (t_ana t)) in *.
      do 4 (destruct i as [|i]; [unfold mx; cbn [sum nth]; field; repeat split; auto|]). lia. }
    rewrite !ET by lia. cbn [nth]. ring. }
  assert (Dot : forall x, dotv 8 u (mulv 13 D x) = dotv 4 y (mulv 6 J (deviation (kin t w) (kfin t w) (theta (t_mono t) (kin t w)) (theta (t_ana t) (kfin t w)) (angles L0 L1 L2 L3 (theta (t_mono t) (kin t w)) (theta (t_ana t) (kfin t w)) (twotheta t q w / 2) x)))).
  { intros x. unfold u, g. rewrite <- (ps_dot t q w U R J) by auto. apply dotv_ext; auto. }
  split.
  - intros x. rewrite <- Dot, <- W. specialize (X1 (mulv 13 D x)). rewrite qf_add in X1. specialize (Y1 x). lra.
  - destruct (Y2 (mulv 8 I u)) as [x [Ex Eq]]. exists x. rewrite <- Dot, <- W, Eq, <- X2, qf_add. assert (E1 : dotv 8 u (mulv 13 D x) = dotv 8 u (mulv 8 I u)) by (apply dotv_ext; auto). rewrite E1.
    assert (E2 : qf 8 (Gm v) (mulv 13 D x) = qf 8 (Gm v) (mulv 8 I u)) by (apply qf_shift; auto). rewrite E2. ring.
Qed.
Print Assumptions C61_popovici.
Example C61_popovici_ex : let t := case 1 (Some (MNum 1)) None (Some 10) (Some case_shape) in exists q w J Z phi,
  usable t 1 /\ reachable t (q, w) /\ popovici t = true /\ (horifoc t <= 0)%Z /\ distances t 1000 200 120 50 /\ inverse 3 (fun i j => diag [1; 2; 3] i j / 12) Z /\
  extent t (fun i j => diag [1; 2; 3] i j / 12) /\ is_phi (kin t w) (kfin t w) (twotheta t q w) phi /\ jacobian (kin t w) (kfin t w) (twotheta t q w) J.
Proof.
  intros t. assert (U : usable t 1) by (apply case_usable; auto; lra). assert (F := case_points_ok 1 (Some (MNum 1)) None (Some 10) (Some case_shape)). inversion F as [|? ? R F']; subst.
  assert (G : good_geom (geom_of t 3 (2072 / 1000 * (3 * 3 - 9)))) by (now apply geom_ok with 1%nat).
  eexists 3, (2072 / 1000 * (3 * 3 - 9)), (Bm (geom_of t _ _)), (diag [12; 6; 4]), (g_phi (geom_of t _ _)). split; [exact U|]. split; [exact R|]. split; [reflexivity|]. split; [cbn; lia|]. split; [left; exists []; split; reflexivity|].
  split; [split; intros i j Li Lj; unfold mul, diag, idm; do 3 (destruct i as [|i]; [do 3 (destruct j as [|j]; [cbn [sum nth Nat.eqb]; lra|]); lia|]); lia|]. split; [apply eqm_refl|].
  split; [|apply (jac_B (geom_of t _ _)); now apply geom_ok with 1%nat].
  exists 3. split; [lra|]. split; [exact (gg_cos _ G)|]. transitivity (- kfin t (2072 / 1000 * (3 * 3 - 9)) * sin (twotheta t 3 (2072 / 1000 * (3 * 3 - 9)))); [exact (gg_sin _ G)|ring].
Qed.

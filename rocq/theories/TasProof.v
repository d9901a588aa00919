(** Proofs about the triple-axis resolution matrices. *)
From Coq Require Import String List ZArith Reals Lra Lia Psatz Bool.
From Verif Require Import Base MatInv TasModel.
From Verif Require MatModel EllipseProps.
Import ListNotations.
Local Open Scope R_scope.

(** * Block diagonal matrices *)
Lemma sum_split n m f : sum (n + m) f = sum n f + sum m (fun i => f (n + i)%nat).
Proof. induction m as [|m IH]; [rewrite Nat.add_0_r; simpl; ring|]. rewrite Nat.add_succ_r. simpl. rewrite IH. ring. Qed.
Lemma blk_a n A B i j : (i < n)%nat -> (j < n)%nat -> blk n A B i j = A i j.
Proof. intros Li Lj. unfold blk. apply Nat.ltb_lt in Li, Lj. now rewrite Li, Lj. Qed.
Lemma blk_b n A B i j : blk n A B (n + i)%nat (n + j)%nat = B i j.
Proof.
  unfold blk. assert ((n + i <? n)%nat = false) by (apply Nat.ltb_ge; lia). rewrite H. cbn [andb].
  assert (n <=? n + i = true)%nat by (apply Nat.leb_le; lia). assert (n <=? n + j = true)%nat by (apply Nat.leb_le; lia). rewrite H0, H1. cbn [andb]. f_equal; lia.
Qed.
Lemma blk_0a n A B i j : (i < n)%nat -> blk n A B i (n + j)%nat = 0.
Proof.
  intros L. unfold blk. assert ((n + j <? n)%nat = false) by (apply Nat.ltb_ge; lia). rewrite H, andb_false_r.
  assert (n <=? i = false)%nat by (apply Nat.leb_gt; lia). now rewrite H0.
Qed.
Lemma blk_0b n A B i j : (j < n)%nat -> blk n A B (n + i)%nat j = 0.
Proof.
  intros L. unfold blk. assert ((n + i <? n)%nat = false) by (apply Nat.ltb_ge; lia). rewrite H. cbn [andb].
  assert (n <=? j = false)%nat by (apply Nat.leb_gt; lia). now rewrite H0, andb_false_r.
Qed.
Lemma qf_blk n m A B x : qf (n + m) (blk n A B) x = qf n A x + qf m B (fun i => x (n + i)%nat).
Proof.
  unfold qf. rewrite sum_split. f_equal.
  - apply sum_ext. intros i Li. rewrite sum_split. rewrite (sum_zero m) by (intros j _; rewrite blk_0a by auto; ring). rewrite Rplus_0_r. apply sum_ext. intros j Lj. now rewrite blk_a.
  - apply sum_ext. intros i Li. rewrite sum_split. rewrite (sum_zero n) by (intros j Lj; rewrite blk_0b by auto; ring). rewrite Rplus_0_l. apply sum_ext. intros j Lj. now rewrite blk_b.
Qed.
Lemma posdef_blk n m A B : posdef n A -> posdef m B -> posdef (n + m) (blk n A B).
Proof.
  intros [SA PA] [SB PB]. split.
  - intros i j Li Lj. unfold tr. destruct (le_lt_dec n i) as [Hi|Hi], (le_lt_dec n j) as [Hj|Hj];
      try (replace i with (n + (i - n))%nat by lia); try (replace j with (n + (j - n))%nat by lia).
    + rewrite !blk_b. apply SB; lia.
    + rewrite blk_0b, blk_0a by auto. reflexivity.
    + rewrite blk_0b, blk_0a by auto. reflexivity.
    + rewrite !blk_a by auto. now apply SA.
  - intros x [i [L N]]. rewrite qf_blk. destruct (nzv_dec n x) as [Nx|Zx].
    + assert (H := PA x Nx). assert (K := posdef_nonneg m B (fun i => x (n + i)%nat) (conj SB PB)). lra.
    + assert (H := posdef_nonneg n A x (conj SA PA)). assert (K : 0 < qf m B (fun i => x (n + i)%nat)); [|lra].
      apply PB. exists (i - n)%nat. destruct (le_lt_dec n i) as [Hi|Hi]; [|exfalso; apply N; auto]. split; [lia|]. replace (n + (i - n))%nat with i by lia. auto.
Qed.
Lemma le_blk n m A A' B B' : le n A A' -> le m B B' -> le (n + m) (blk n A B) (blk n A' B').
Proof. intros H K x. rewrite !qf_blk. specialize (H x). specialize (K (fun i => x (n + i)%nat)). lra. Qed.
Lemma posdef_idm n : posdef n idm.
Proof.
  assert (E : eqm n n (diag (repeat 1 n)) idm). { intros i j Li Lj. unfold diag, idm. destruct (Nat.eqb i j); auto. now rewrite nth_repeat || (rewrite nth_indep with (d' := 1) by (rewrite repeat_length; auto); apply nth_repeat). }
  apply posdef_ext with (diag (repeat 1 n)); auto. apply posdef_diag. intros i Li. rewrite nth_indep with (d' := 1) by (rewrite repeat_length; auto). rewrite nth_repeat. lra.
Qed.

(** Entries of diagonal matrices of positive numbers. *)
Lemma posdef_diag_l n l : List.length l = n -> Forall (fun x => 0 < x) l -> posdef n (diag l).
Proof. intros <- H. apply posdef_diag. intros i L. rewrite Forall_forall in H. apply H. now apply nth_In. Qed.
Lemma inv_sqr_pos x : x <> 0 -> 0 < 1 / x ^ 2.
Proof. intros N. apply Rdiv_lt_0_compat; [lra|]. rewrite <- Rsqr_pow2. now apply Rsqr_pos_lt. Qed.
Lemma sqr12_pos x k : x <> 0 -> 0 < k -> 0 < x ^ 2 / k.
Proof. intros N K. apply Rdiv_lt_0_compat; auto. rewrite <- Rsqr_pow2. now apply Rsqr_pos_lt. Qed.

(** * Geometry of a point *)
Record good_geom (g : geom) : Prop := {
  gg_ki : 0 < g_ki g; gg_kf : 0 < g_kf g; gg_q : 0 < g_q g;
  gg_cm : 0 < cos (g_tm g); gg_ca : 0 < cos (g_ta g); gg_sm : sin (g_tm g) <> 0; gg_sa : sin (g_ta g) <> 0;
  gg_s2 : sin (g_2t g) <> 0;
  gg_cos : g_q g * cos (g_phi g) = g_ki g - g_kf g * cos (g_2t g);
  gg_sin : g_q g * sin (g_phi g) = - g_kf g * sin (g_2t g);
  gg_tri : g_q g ^ 2 = g_ki g ^ 2 + g_kf g ^ 2 - 2 * g_ki g * g_kf g * cos (g_2t g) }.
Lemma CONVERT2_pos : 0 < CONVERT2. Proof. unfold CONVERT2. lra. Qed.

Lemma tan_sin_pos th : 0 < cos th -> sin th <> 0 -> tan th <> 0 /\ 0 < 1 / (tan th * sin th).
Proof.
  intros C S. assert (T : tan th * sin th = sin th ^ 2 / cos th) by (unfold tan; field; lra).
  assert (0 < sin th ^ 2) by (rewrite <- Rsqr_pow2; now apply Rsqr_pos_lt). split.
  - unfold tan. intros Z. apply S. apply (Rmult_eq_reg_r (/ cos th)); [|apply Rinv_neq_0_compat; lra]. unfold Rdiv in Z. lra.
  - rewrite T. apply Rdiv_lt_0_compat; [lra|]. now apply Rdiv_lt_0_compat.
Qed.

Ltac col H k := let X := fresh "X" in assert (X := H k ltac:(lia)); unfold mulv, tr, Am, Bm, Dm, mx in X; cbn [sum nth] in X.
Lemma mul0 a x : a <> 0 -> a * x = 0 -> x = 0.
Proof. intros N H. destruct (Rmult_integral _ _ H); tauto. Qed.
Lemma six (P : nat -> Prop) : P 0%nat -> P 1%nat -> P 2%nat -> P 3%nat -> P 4%nat -> P 5%nat -> forall i, (i < 6)%nat -> P i.
Proof. intros. do 6 (destruct i as [|i]; auto). lia. Qed.
Lemma rank_A g : good_geom g -> full_rank 6 8 (Am g).
Proof.
  intros G x H. destruct (tan_sin_pos (g_tm g) (gg_cm g G) (gg_sm g G)) as [Tm _]. destruct (tan_sin_pos (g_ta g) (gg_ca g G) (gg_sa g G)) as [Ta _].
  assert (Ki := gg_ki g G). assert (Kf := gg_kf g G).
  assert (Am0 : g_ki g / 2 / tan (g_tm g) <> 0) by (apply Rmult_integral_contrapositive_currified; [lra|now apply Rinv_neq_0_compat]).
  assert (Aa0 : g_kf g / 2 / tan (g_ta g) <> 0) by (apply Rmult_integral_contrapositive_currified; [lra|now apply Rinv_neq_0_compat]).
  col H 0%nat. col H 1%nat. col H 3%nat. col H 4%nat. col H 5%nat. col H 6%nat.
  assert (E0 : x 0%nat = 0) by (apply (mul0 (g_ki g / 2 / tan (g_tm g))); auto; lra). rewrite E0 in *.
  assert (E1 : x 1%nat = 0) by (apply (mul0 (g_ki g)); lra).
  assert (E2 : x 2%nat = 0) by (apply (mul0 (g_ki g)); lra).
  assert (E3 : x 3%nat = 0) by (apply (mul0 (- g_kf g / 2 / tan (g_ta g))); [|lra]; intros Z; apply Aa0; unfold Rdiv in *; lra). rewrite E3 in *.
  assert (E4 : x 4%nat = 0) by (apply (mul0 (g_kf g)); lra).
  assert (E5 : x 5%nat = 0) by (apply (mul0 (g_kf g)); lra).
  apply six; auto.
Qed.
Lemma rank_B g : good_geom g -> full_rank 4 6 (Bm g).
Proof.
  intros G x H. assert (Ki := gg_ki g G). assert (C2 := CONVERT2_pos).
  col H 0%nat. col H 1%nat. col H 2%nat. col H 4%nat. set (f := g_phi g) in *. set (e := f - g_2t g) in *.
  assert (Sd : sin f * cos e - cos f * sin e <> 0). { rewrite <- sin_minus. replace (f - e) with (g_2t g) by (unfold e; ring). apply G. }
  assert (E1 : x 1%nat = 0). { apply (mul0 (sin f * cos e - cos f * sin e)); auto. transitivity (sin e * (sin f * x 0%nat + cos f * x 1%nat) - sin f * (sin e * x 0%nat + cos e * x 1%nat) + 2 * (sin f * cos e - cos f * sin e) * x 1%nat); [ring|].
    replace (sin f * x 0%nat + cos f * x 1%nat) with 0 by lra. replace (sin e * x 0%nat + cos e * x 1%nat) with 0 by lra.
    (* the combination itself *)
    assert (Y : (sin f * cos e - cos f * sin e) * x 1%nat = sin f * (sin e * x 0%nat + cos e * x 1%nat) - sin e * (sin f * x 0%nat + cos f * x 1%nat)) by ring.
    replace (sin f * x 0%nat + cos f * x 1%nat) with 0 in Y by lra. replace (sin e * x 0%nat + cos e * x 1%nat) with 0 in Y by lra. lra. }
  assert (E0 : x 0%nat = 0). { apply (mul0 (sin f * cos e - cos f * sin e)); auto.
    assert (Y : (sin f * cos e - cos f * sin e) * x 0%nat = cos e * (sin f * x 0%nat + cos f * x 1%nat) - cos f * (sin e * x 0%nat + cos e * x 1%nat)) by ring.
    replace (sin f * x 0%nat + cos f * x 1%nat) with 0 in Y by lra. replace (sin e * x 0%nat + cos e * x 1%nat) with 0 in Y by lra. lra. }
  rewrite E0, E1 in *. assert (E2 : x 2%nat = 0) by lra.
  assert (E3 : x 3%nat = 0). { apply (mul0 (2 * CONVERT2 * g_ki g)); [|lra]. apply Rgt_not_eq. apply Rmult_lt_0_compat; lra. }
  intros i Li. do 4 (destruct i as [|i]; auto). lia.
Qed.
Lemma rank_D L0 L1 L2 L3 g : good_geom g -> L0 <> 0 -> L1 <> 0 -> L2 <> 0 -> L3 <> 0 -> full_rank 8 13 (Dm L0 L1 L2 L3 g).
Proof.
  intros G N0 N1 N2 N3 x H. assert (Cm := gg_cm g G). assert (Ca := gg_ca g G).
  assert (I0 := Rinv_neq_0_compat _ N0). assert (I1 := Rinv_neq_0_compat _ N1). assert (I2 := Rinv_neq_0_compat _ N2). assert (I3 := Rinv_neq_0_compat _ N3).
  col H 0%nat. col H 1%nat. col H 2%nat. col H 4%nat. col H 7%nat. col H 8%nat. col H 10%nat. col H 11%nat. unfold Rdiv in *.
  assert (E0 : x 0%nat = 0) by (apply (mul0 (/ L0)); auto; lra). rewrite E0 in *.
  assert (E2 : x 2%nat = 0) by (apply (mul0 (/ L0)); auto; lra). rewrite E2 in *.
  assert (E3 : x 3%nat = 0) by (apply (mul0 (/ L1)); auto; lra). rewrite E3 in *.
  assert (E6 : x 6%nat = 0) by (apply (mul0 (/ L2)); auto; lra). rewrite E6 in *.
  assert (E7 : x 7%nat = 0) by (apply (mul0 (/ L3)); auto; lra). rewrite E7 in *.
  assert (E5 : x 5%nat = 0) by (apply (mul0 (/ L3)); auto; lra). rewrite E5 in *.
  assert (E1 : x 1%nat = 0). { apply (mul0 (cos (g_tm g) * / L1)); [|lra]. apply Rmult_integral_contrapositive_currified; auto; lra. }
  assert (E4 : x 4%nat = 0). { apply (mul0 (cos (g_ta g) * / L2)); [|lra]. apply Rmult_integral_contrapositive_currified; auto; lra. }
  intros i Li. do 8 (destruct i as [|i]; auto). lia.
Qed.

(** * The instrument *)
Definition size_ok (o : option R) : Prop := match o with Some x => x <> 0 | None => True end.
Definition window_ok (o : option window) : Prop := match o with Some w => size_ok (w_width w) /\ size_ok (w_height w) | None => True end.
Definition crystal_ok (x : crystal) : Prop :=
  0 < x_tau x /\ x_mosaic x <> 0 /\ size_ok (x_vmosaic x) /\ (x_dir x = 1 \/ x_dir x = -1) /\
  size_ok (x_width x) /\ size_ok (x_height x) /\ size_ok (x_depth x) /\ size_ok (x_rv x) /\ size_ok (x_rh x).
Definition sample_ok (t : tas) (n : nat) : Prop :=
  match s_width t, s_depth t, s_height t with
  | Some w, Some d, Some h => w <> 0 /\ d <> 0 /\ h <> 0
  | _, _, _ => match s_shape t with
               | None => True
               | Some (S2 m) => posdef 3 m
               | Some (S3 l) => (n <= List.length l)%nat /\ Forall (posdef 3) l
               end
  end.
(** An instrument with which [n] points can be computed: nothing vanishes, senses are 1 or -1. *)
Definition usable (t : tas) (n : nat) : Prop :=
  (forall i, (i < 4)%nat -> t_hcol t i <> 0 /\ t_vcol t i <> 0) /\ crystal_ok (t_mono t) /\ crystal_ok (t_ana t) /\
  window_ok (t_guide t) /\ window_ok (t_monitor t) /\ window_ok (t_detector t) /\
  (s_dir t = 1 \/ s_dir t = -1) /\ sample_ok t n /\
  (t_method t = Some (MNum 1) -> match t_arms t with Some l => (4 <= List.length l)%nat /\ Forall (fun x => x <> 0) l | None => True end) /\
  match t_thickness t, t_Q t with Some a, Some b => 0 < a * b /\ 0 < x_mosaic (t_ana t) | _, _ => True end.

Lemma C1_pos : 0 < CONVERT1.
Proof.
  unfold CONVERT1. assert (P := PI_RGT_0). assert (0 < sqrt (8 * ln 2)). { apply sqrt_lt_R0. apply Rmult_lt_0_compat; [lra|]. rewrite <- ln_1. apply ln_increasing; lra. }
  apply Rdiv_lt_0_compat; lra.
Qed.
Lemma size_pos o : size_ok o -> 0 < size o.
Proof. destruct o as [x|]; simpl; intros H; [apply sqr12_pos; auto; lra|lra]. Qed.
Lemma posdef_window o : window_ok o -> posdef 2 (match o with Some w => diag [size (w_width w); size (w_height w)] | None => diag [1; 1] end).
Proof. destruct o as [w|]; simpl; intros H; apply posdef_diag_l; auto; repeat constructor; try lra; apply size_pos; tauto. Qed.
Lemma posdef_monitor t : window_ok (t_monitor t) -> posdef 2 (monitorshape t).
Proof.
  unfold monitorshape. destruct (t_monitor t) as [w|]; simpl; intros H; apply posdef_diag_l; auto; repeat constructor; try lra; try (apply size_pos; tauto).
  destruct H as [Hw Hh]. destruct (w_height w) as [h|]; [apply sqr12_pos; auto; lra|now apply size_pos].
Qed.
Lemma posdef_xshape x : crystal_ok x -> posdef 3 (xshape x).
Proof. intros H. unfold crystal_ok in H. apply posdef_diag_l; auto. repeat constructor; apply size_pos; tauto. Qed.
Lemma factor_pos t : 0 < factor t.
Proof. unfold factor. destruct (s_type t) as [s|]; [destruct (String.eqb s "cylindrical")|]; lra. Qed.
Lemma qf_scal n k M x : qf n (fun i j => M i j * k) x = qf n M x * k.
Proof. unfold qf. rewrite <- sum_scal_r. apply sum_ext. intros i _. rewrite <- sum_scal_r. apply sum_ext. intros. ring. Qed.
Lemma posdef_scal n k M : 0 < k -> posdef n M -> posdef n (fun i j => M i j / k).
Proof.
  intros K [S P]. split; [intros i j Li Lj; unfold tr; rewrite S by auto; reflexivity|]. intros x N. unfold Rdiv. rewrite qf_scal. apply Rmult_lt_0_compat; auto. now apply Rinv_0_lt_compat.
Qed.
Lemma sshapes_ok t n i : sample_ok t n -> (i < n)%nat -> exists sh, sshapes t i = Some sh /\ posdef 3 sh.
Proof.
  intros H L. assert (F := factor_pos t). unfold sample_ok in H. unfold sshapes.
  assert (D : (match s_shape t with None => True | Some (S2 m) => posdef 3 m | Some (S3 l) => (n <= List.length l)%nat /\ Forall (posdef 3) l end) ->
     exists sh, match s_shape t with None => Some idm | Some (S2 m) => Some (fun i j => m i j / factor t)
       | Some (S3 l) => match nth_error l i with Some m => Some (fun i j => m i j / factor t) | None => None end end = Some sh /\ posdef 3 sh).
  { destruct (s_shape t) as [[m|l]|]; intros K.
    - eexists. split; [reflexivity|]. now apply posdef_scal.
    - destruct K as [K1 K2]. destruct (nth_error l i) as [m|] eqn:E; [|apply nth_error_None in E; lia]. eexists. split; [reflexivity|]. apply posdef_scal; auto. rewrite Forall_forall in K2. apply K2. now apply nth_error_In in E.
    - exists idm. split; auto. apply posdef_idm. }
  destruct (s_width t) as [w|], (s_depth t) as [d|], (s_height t) as [h|]; auto.
  eexists. split; [reflexivity|]. apply posdef_diag_l; auto. repeat constructor; apply sqr12_pos; tauto.
Qed.
Lemma rot_rank psi : full_rank 3 3 (mx [[cos psi; sin psi; 0]; [- sin psi; cos psi; 0]; [0; 0; 1]]).
Proof.
  intros x H. col H 0%nat. col H 1%nat. col H 2%nat. assert (T := sin2_cos2 psi). unfold Rsqr in T.
  assert (E0 : x 0%nat = 0). { transitivity ((sin psi * sin psi + cos psi * cos psi) * x 0%nat); [rewrite T; ring|]. transitivity (cos psi * (cos psi * x 0%nat - sin psi * x 1%nat) + sin psi * (sin psi * x 0%nat + cos psi * x 1%nat)); [ring|].
    replace (cos psi * x 0%nat - sin psi * x 1%nat) with 0 by lra. replace (sin psi * x 0%nat + cos psi * x 1%nat) with 0 by lra. ring. }
  assert (E1 : x 1%nat = 0). { transitivity ((sin psi * sin psi + cos psi * cos psi) * x 1%nat); [rewrite T; ring|]. transitivity (- sin psi * (cos psi * x 0%nat - sin psi * x 1%nat) + cos psi * (sin psi * x 0%nat + cos psi * x 1%nat)); [ring|].
    replace (cos psi * x 0%nat - sin psi * x 1%nat) with 0 by lra. replace (sin psi * x 0%nat + cos psi * x 1%nat) with 0 by lra. ring. }
  intros i L. do 3 (destruct i as [|i]; auto); [lra|lia].
Qed.
Lemma posdef_rotated g sh : posdef 3 sh -> posdef 3 (rotated g sh).
Proof.
  intros H. unfold rotated. cbv zeta. set (rot := mx _). apply posdef_ext with (mul 3 rot (mul 3 sh (tr rot))); [apply eqm_sym, mul_assoc|].
  apply posdef_congr; auto. apply rot_rank.
Qed.
Lemma posdef_Sinv t g n sh : usable t n -> posdef 3 sh -> posdef 13 (Sinv t g sh).
Proof.
  intros (_ & M & A & W1 & _ & W3 & _) S. unfold Sinv. apply (posdef_blk 2 11); [now apply posdef_window|]. apply (posdef_blk 3 8); [now apply posdef_xshape|].
  apply (posdef_blk 3 5); [now apply posdef_rotated|]. apply (posdef_blk 3 2); [now apply posdef_xshape|]. now apply posdef_window.
Qed.

(** Loop variables that allow a computation. *)
Definition vars_ok (v : loopvars) : Prop :=
  (forall i, (i < 4)%nat -> v_alpha v i <> 0 /\ v_beta v i <> 0) /\ v_mrh v <> 0 /\ v_mrv v <> 0 /\ v_arh v <> 0 /\ v_arv v <> 0.
Lemma posdef_G v : vars_ok v -> posdef 8 (Gm v).
Proof.
  intros (H & _). unfold Gm. apply posdef_diag_l; auto.
  repeat constructor; apply inv_sqr_pos; apply H; lia.
Qed.
Lemma mono_eta t n : usable t n -> etam t <> 0 /\ etamv t <> 0 /\ etaa t <> 0 /\ etaav t <> 0.
Proof.
  intros (_ & (_ & M1 & M2 & _) & (_ & A1 & A2 & _) & _). assert (C := C1_pos). assert (K : forall x, x <> 0 -> x * CONVERT1 <> 0) by (intros; apply Rmult_integral_contrapositive_currified; lra).
  unfold etamv, etaav, etam, etaa. repeat split; auto.
  - destruct (x_vmosaic (t_mono t)) as [x|]; auto. simpl in M2. destruct (_ || _)%bool; auto.
  - destruct (x_vmosaic (t_ana t)) as [x|]; auto.
Qed.
Lemma posdef_F t n : usable t n -> posdef 4 (Fm t).
Proof.
  intros U. destruct (mono_eta t n U) as (E1 & E2 & E3 & E4). unfold Fm. apply posdef_diag_l; auto. repeat constructor; now apply inv_sqr_pos.
Qed.
Lemma posdef_F2 t n : usable t n -> posdef 2 (Fm t).
Proof.
  intros U. destruct (mono_eta t n U) as (E1 & E2 & E3 & E4). unfold Fm. apply posdef_diag. intros i L. do 2 (destruct i as [|i]; [cbn; now apply inv_sqr_pos|]). lia.
Qed.
(** F sandwiched. *)
Lemma FT n k F T : posdef k F -> symm n (mul k (tr T) (mul k F T)) /\ forall x, 0 <= qf n (mul k (tr T) (mul k F T)) x.
Proof.
  intros H. assert (E : eqm n n (mul k (tr T) (mul k F (tr (tr T)))) (mul k (tr T) (mul k F T))) by apply eqm_refl. split.
  - apply (symm_congr n k (tr T)). apply H.
  - intros x. change (mul k (tr T) (mul k F T)) with (mul k (tr T) (mul k F (tr (tr T)))). rewrite qf_congr. now apply posdef_nonneg.
Qed.
Lemma posdef_Hc t v g n : usable t n -> vars_ok v -> posdef 8 (H_cooper t v g).
Proof. intros U V. destruct (FT 8 4 (Fm t) (Cm g) (posdef_F t n U)). apply posdef_add_nonneg; auto. now apply posdef_G. Qed.
Lemma posdef_Hp t v L0 L1 L2 L3 g sh n : usable t n -> vars_ok v -> good_geom g -> posdef 3 sh -> L0 <> 0 -> L1 <> 0 -> L2 <> 0 -> L3 <> 0 ->
  exists HG, HG_popovici t v L0 L1 L2 L3 g sh = Some HG /\ posdef 8 HG.
Proof.
  intros U V G S N0 N1 N2 N3. unfold HG_popovici. destruct (minv_posdef 13 _ (posdef_Sinv t g n sh U S)) as [Sm [-> [_ PS]]]. cbn [ob].
  destruct (FT 13 4 (Fm t) (Tm L0 L1 L2 L3 v g) (posdef_F t n U)) as [F1 F2].
  destruct (minv_posdef 13 _ (posdef_add_nonneg 13 _ _ PS F1 F2)) as [Ki [-> [_ PK]]]. cbn [ob].
  destruct (minv_posdef 8 _ (posdef_congr 8 13 _ _ PK (rank_D L0 L1 L2 L3 g G N0 N1 N2 N3))) as [H [-> [_ PH]]]. cbn [ob].
  eexists. split; [reflexivity|]. apply posdef_add_nonneg; auto; [apply symm_diag|]. intros x. apply posdef_nonneg. now apply posdef_G.
Qed.

(** Sign patterns. *)
Definition sg (l : list bool) : vec := fun i => if nth i l false then -1 else 1.
Lemma signs_sg l : signs (sg l).
Proof. intros i. unfold sg. destruct (nth i l false); ring. Qed.
Lemma conj_diag n s d : signs s -> eqm n n (conj_by s s (diag d)) (diag d).
Proof. intros H i j _ _. unfold conj_by, diag. destruct (Nat.eqb_spec i j) as [->|]; [|ring]. transitivity (s j * s j * nth j d 0); [ring|rewrite H; ring]. Qed.
(** Conjugation through a sandwich. *)
Lemma conj_sandwich n k s u A N : signs u -> eqm k k (conj_by u u N) N -> eqm n k (conj_by s u A) A ->
  eqm n n (conj_by s s (mul k A (mul k N (tr A)))) (mul k A (mul k N (tr A))).
Proof.
  intros U HN HA. apply eqm_trans with (mul k (conj_by s u A) (mul k (conj_by u u N) (conj_by u s (tr A)))).
  - apply eqm_trans with (mul k (conj_by s u A) (conj_by u s (mul k N (tr A)))); [apply eqm_sym; now apply mul_conj|]. apply mul_ext; [apply eqm_refl|]. apply eqm_sym. now apply mul_conj.
  - apply mul_ext; auto. apply mul_ext; auto. apply eqm_trans with (tr (conj_by s u A)); [apply eqm_sym, tr_conj|]. now apply tr_ext.
Qed.
Lemma conj_inverse n s M N : signs s -> inverse n M N -> eqm n n (conj_by s s M) M -> eqm n n (conj_by s s N) N.
Proof.
  intros H I E. assert (J := inverse_conj n s M N H I). destruct I as [I1 I2], J as [J1 J2]. apply inverse_unique with M; auto.
  apply eqm_trans with (mul n (conj_by s s M) (conj_by s s N)); auto. apply mul_ext; [apply eqm_sym; auto|apply eqm_refl].
Qed.
Lemma conj_add n s A B : eqm n n (conj_by s s A) A -> eqm n n (conj_by s s B) B -> eqm n n (conj_by s s (addm A B)) (addm A B).
Proof.
  intros H K i j Li Lj. transitivity (conj_by s s A i j + conj_by s s B i j); [unfold conj_by, addm; ring|]. rewrite H, K by auto. reflexivity.
Qed.
(** Entry by entry. *)
Ltac rows i n := match n with O => lia | S ?m => destruct i as [|i]; [|rows i m] end.
Ltac entries := intros i j Li Lj; unfold conj_by, sg;
  repeat (destruct i as [|i]; [repeat (destruct j as [|j]; [cbn [nth]; unfold mx; cbn [nth]; try (unfold Rdiv; ring)|try lia])|try lia]).
(** The analyzer's horizontal angles (indices 4, 5 of 8 and 3, 4 of 6) decouple from everything else. *)
Definition s8a := sg [false; false; false; false; true; true; false; false].
Definition s6a := sg [false; false; false; true; true; false].
Definition s4a := sg [false; false; true; false].
Lemma dec_A g : eqm 6 8 (conj_by s6a s8a (Am g)) (Am g).
Proof. unfold s6a, s8a, Am. entries. Qed.
Lemma dec_C g : eqm 8 4 (conj_by s8a s4a (tr (Cm g))) (tr (Cm g)).
Proof. unfold s4a, s8a, Cm, tr. entries. Qed.
Lemma dec_H t v g : eqm 8 8 (conj_by s8a s8a (H_cooper t v g)) (H_cooper t v g).
Proof.
  apply conj_add; [apply conj_diag, signs_sg|].
  change (mul 4 (tr (Cm g)) (mul 4 (Fm t) (Cm g))) with (mul 4 (tr (Cm g)) (mul 4 (Fm t) (tr (tr (Cm g))))).
  apply conj_sandwich with s4a; [apply signs_sg|apply conj_diag, signs_sg|apply dec_C].
Qed.
Lemma sg_off l n N i j : eqm n n (conj_by (sg l) (sg l) N) N -> (i < n)%nat -> (j < n)%nat -> nth i l false <> nth j l false -> N i j = 0.
Proof. intros H Li Lj D. assert (E := H i j Li Lj). unfold conj_by, sg in E. destruct (nth i l false), (nth j l false); try congruence; lra. Qed.

Lemma focused_posdef t v g n N : usable t n -> vars_ok v -> good_geom g -> posdef 6 N -> eqm 6 6 (conj_by s6a s6a N) N -> posdef 6 (focused t v g N).
Proof.
  intros U V G [S P] E.
  assert (Z : forall i j, (i < 6)%nat -> (j < 6)%nat -> nth i [false; false; false; true; true; false] false <> nth j [false; false; false; true; true; false] false -> N i j = 0).
  { intros. now apply (sg_off [false; false; false; true; true; false] 6). }
  destruct (mono_eta t n U) as (_ & _ & Ea & _). assert (Kf := gg_kf g G). destruct (tan_sin_pos (g_ta g) (gg_ca g G) (gg_sa g G)) as [Ta _]. destruct V as (Va & _). destruct (Va 2%nat ltac:(lia)) as [A2 _].
  set (d3 := (tan (g_ta g) / (etaa t * g_kf g)) ^ 2). set (d4 := (1 / (g_kf g * v_alpha v 2%nat)) ^ 2).
  assert (D3 : 0 < d3). { unfold d3. rewrite <- Rsqr_pow2. apply Rsqr_pos_lt. apply Rmult_integral_contrapositive_currified; auto. apply Rinv_neq_0_compat. apply Rmult_integral_contrapositive_currified; lra. }
  assert (D4 : 0 < d4). { unfold d4. rewrite <- Rsqr_pow2. apply Rsqr_pos_lt. apply Rmult_integral_contrapositive_currified; [lra|]. apply Rinv_neq_0_compat. apply Rmult_integral_contrapositive_currified; lra. }
  assert (Q : forall x, qf 6 (focused t v g N) x = qf 6 N (fun i => if (Nat.leb 3 i && Nat.ltb i 5)%bool then 0 else x i) + d3 * x 3%nat ^ 2 + d4 * x 4%nat ^ 2).
  { intros x. unfold qf, focused. cbn [sum Nat.leb Nat.ltb andb Nat.sub]. unfold mx. cbn [nth]. fold d3 d4.
    rewrite (Z 0 3)%nat, (Z 0 4)%nat, (Z 1 3)%nat, (Z 1 4)%nat, (Z 2 3)%nat, (Z 2 4)%nat, (Z 5 3)%nat, (Z 5 4)%nat by (try lia; discriminate).
    rewrite (Z 3 0)%nat, (Z 4 0)%nat, (Z 3 1)%nat, (Z 4 1)%nat, (Z 3 2)%nat, (Z 4 2)%nat, (Z 3 5)%nat, (Z 4 5)%nat by (try lia; discriminate). ring. }
  split.
  - intros i j Li Lj. unfold tr, focused. rewrite <- !andb_assoc.
    replace ((3 <=? j) && ((j <? 5) && ((3 <=? i) && (i <? 5))))%nat with ((3 <=? i) && ((i <? 5) && ((3 <=? j) && (j <? 5))))%nat by (destruct (3 <=? i)%nat, (i <? 5)%nat, (3 <=? j)%nat, (j <? 5)%nat; reflexivity).
    destruct ((3 <=? i) && ((i <? 5) && ((3 <=? j) && (j <? 5))))%nat eqn:B; [|now apply S].
    rewrite !andb_true_iff, !Nat.leb_le, !Nat.ltb_lt in B. destruct B as (B1 & B2 & B3 & B4).
    assert (Ci : i = 3%nat \/ i = 4%nat) by lia. assert (Cj : j = 3%nat \/ j = 4%nat) by lia. destruct Ci as [-> | ->], Cj as [-> | ->]; reflexivity.
  - intros x Nx. rewrite Q. set (y := fun i => if (Nat.leb 3 i && Nat.ltb i 5)%bool then 0 else x i).
    assert (X3 : 0 <= x 3%nat ^ 2) by apply pow2_ge_0. assert (X4 : 0 <= x 4%nat ^ 2) by apply pow2_ge_0.
    assert (Y3 := Rmult_le_pos _ _ (Rlt_le _ _ D3) X3). assert (Y4 := Rmult_le_pos _ _ (Rlt_le _ _ D4) X4).
    assert (Yn := posdef_nonneg 6 N y (conj S P)).
    destruct (nzv_dec 6 y) as [Ny|Zy]; [assert (Yp := P y Ny); lra|].
    destruct (Req_EM_T (x 3%nat) 0) as [E3|E3].
    + destruct (Req_EM_T (x 4%nat) 0) as [E4|E4].
      * exfalso. destruct Nx as [i [L Ni]]. apply Ni. destruct ((3 <=? i) && (i <? 5))%nat eqn:B.
        -- rewrite andb_true_iff, Nat.leb_le, Nat.ltb_lt in B. assert (Ci : i = 3%nat \/ i = 4%nat) by lia. destruct Ci as [-> | ->]; auto.
        -- specialize (Zy i L). unfold y in Zy. now rewrite B in Zy.
      * assert (0 < x 4%nat ^ 2) by (rewrite <- Rsqr_pow2; now apply Rsqr_pos_lt). assert (0 < d4 * x 4%nat ^ 2) by (now apply Rmult_lt_0_compat). lra.
    + assert (0 < x 3%nat ^ 2) by (rewrite <- Rsqr_pow2; now apply Rsqr_pos_lt). assert (0 < d3 * x 3%nat ^ 2) by (now apply Rmult_lt_0_compat). lra.
Qed.

Definition Ls4 (Ls : R * R * R * R * R) : R * R * R * R := fst Ls.
Definition Ls_ok (Ls : R * R * R * R * R) : Prop := let '(L0, L1, L2, L3, Lm) := Ls in L0 <> 0 /\ L1 <> 0 /\ L2 <> 0 /\ L3 <> 0 /\ Lm <> 0.
Lemma Ninv_ok t v L0 L1 L2 L3 g sh n : usable t n -> vars_ok v -> good_geom g -> posdef 3 sh -> L0 <> 0 -> L1 <> 0 -> L2 <> 0 -> L3 <> 0 ->
  exists N HG, Ninv t v (L0, L1, L2, L3) g sh = Some (N, HG) /\ posdef 6 N /\ posdef 8 HG.
Proof.
  intros U V G S N0 N1 N2 N3. unfold Ninv. destruct (popovici t).
  - destruct (posdef_Hp t v L0 L1 L2 L3 g sh n U V G S N0 N1 N2 N3) as [HG [-> PH]]. cbn [ob]. destruct (minv_posdef 8 HG PH) as [I [-> [_ PI]]]. cbn [ob].
    eexists _, _. split; [reflexivity|]. split; auto. apply posdef_congr; auto. now apply rank_A.
  - assert (PH := posdef_Hc t v g n U V). destruct (minv_posdef 8 _ PH) as [I [-> [II PI]]]. cbn [ob]. set (N := mul 8 (Am g) (mul 8 I (tr (Am g)))).
    assert (PN : posdef 6 N) by (apply posdef_congr; auto; now apply rank_A).
    destruct (0 <? horifoc t)%Z; [|eexists _, _; split; [reflexivity|]; auto].
    destruct (minv_posdef 6 N PN) as [N1' [-> [IN PN1]]]. cbn [ob].
    assert (DN : eqm 6 6 (conj_by s6a s6a N1') N1').
    { apply conj_inverse with N; auto; [apply signs_sg|]. apply conj_sandwich with s8a; [apply signs_sg| |apply dec_A]. apply conj_inverse with (H_cooper t v g); auto; [apply signs_sg|apply dec_H]. }
    destruct (minv_posdef 6 _ (focused_posdef t v g n N1' U V G PN1 DN)) as [N2' [-> [_ PN2]]]. cbn [ob]. eexists _, _. split; [reflexivity|]. auto.
Qed.

Lemma posdef_G4 v : vars_ok v -> posdef 4 (Gm v).
Proof.
  intros (H & _). unfold Gm. apply posdef_diag. intros i L. do 4 (destruct i as [|i]; [cbn; apply inv_sqr_pos; apply H; lia|]). lia.
Qed.
Lemma Rmon_ok t v L0 Lm g n : usable t n -> vars_ok v -> good_geom g -> L0 <> 0 -> Lm <> 0 -> exists r, Rmon t v L0 Lm g = Some r /\ 0 < r.
Proof.
  intros U V G N0 Nm. unfold Rmon. set (tt := mx [[- 1 / (2 * L0); _; _; _; _; _; _]; _]). set (d := mx [[- 1 / L0; 0; - cos (g_tm g) / L0; _; _; _; _]; _; _; _]).
  assert (F2 := posdef_F2 t n U). assert (G4 := posdef_G4 v V).
  assert (Fin : forall h, posdef 4 h -> exists r, ob (detm 2 (Fm t)) (fun df => ob (detm 4 h) (fun dh => Some (g_ki g ^ 3 / tan (g_tm g) * (2 * PI) ^ 2 / (8 * PI * sin (g_tm g)) * sqrt (df / dh)))) = Some r /\ 0 < r).
  { intros h Ph. destruct (posdef_detm 2 _ F2) as [df [-> Pdf]]. destruct (posdef_detm 4 _ Ph) as [dh [-> Pdh]]. cbn [ob]. eexists. split; [reflexivity|].
    destruct (tan_sin_pos (g_tm g) (gg_cm g G) (gg_sm g G)) as [Tm Ts]. assert (Ki := gg_ki g G). assert (P := PI_RGT_0). assert (Sm := gg_sm g G).
    apply Rmult_lt_0_compat; [|apply sqrt_lt_R0; now apply Rdiv_lt_0_compat].
    replace (g_ki g ^ 3 / tan (g_tm g) * (2 * PI) ^ 2 / (8 * PI * sin (g_tm g))) with (g_ki g ^ 3 * (PI / 2) * (1 / (tan (g_tm g) * sin (g_tm g)))) by (field; repeat split; auto; lra).
    apply Rmult_lt_0_compat; auto. apply Rmult_lt_0_compat; [now apply pow_lt|lra]. }
  destruct U as (Uc & M & A & W1 & W2 & W3 & W4). assert (PS : posdef 7 (blk 2 (bshape t) (blk 3 (xshape (t_mono t)) (monitorshape t)))).
  { apply (posdef_blk 2 5); [now apply posdef_window|]. apply (posdef_blk 3 2); [now apply posdef_xshape|now apply posdef_monitor]. }
  destruct (minv_posdef 7 _ PS) as [s [-> [_ Ps]]]. cbn [ob].
  destruct (popovici t).
  - destruct (FT 7 2 (Fm t) tt F2) as [F3 F4].
    destruct (minv_posdef 7 _ (posdef_add_nonneg 7 _ _ Ps F3 F4)) as [ki [-> [_ Pk]]]. cbn [ob].
    assert (Rd : full_rank 4 7 d).
    { intros x H. assert (I0 := Rinv_neq_0_compat _ N0). assert (Im := Rinv_neq_0_compat _ Nm).
      assert (X0 := H 0%nat ltac:(lia)). assert (X1 := H 1%nat ltac:(lia)). assert (X4 := H 4%nat ltac:(lia)). assert (X6 := H 6%nat ltac:(lia)).
      unfold mulv, tr, d, mx, Rdiv in X0, X1, X4, X6. cbn [sum nth] in X0, X1, X4, X6.
      assert (E0 : x 0%nat = 0) by (apply (mul0 (/ L0)); auto; lra). rewrite E0 in *.
      assert (E2 : x 2%nat = 0) by (apply (mul0 (/ L0)); auto; lra). rewrite E2 in *.
      assert (E3 : x 3%nat = 0) by (apply (mul0 (/ Lm)); auto; lra).
      assert (E1 : x 1%nat = 0) by (apply (mul0 (/ Lm)); auto; lra).
      intros i L. do 4 (destruct i as [|i]; auto). lia. }
    destruct (minv_posdef 4 _ (posdef_congr 4 7 _ _ Pk Rd)) as [h [-> [_ Ph]]]. cbn [ob]. apply Fin. apply posdef_add_nonneg; auto; [apply symm_diag|]. intros x. now apply posdef_nonneg.
  - cbn [ob]. apply Fin. destruct (FT 4 2 (Fm t) (Cm g) F2). now apply posdef_add_nonneg.
Qed.
Lemma prefactor_ok t v L0 Lm g n HG M : usable t n -> vars_ok v -> good_geom g -> L0 <> 0 -> Lm <> 0 -> posdef 8 HG -> posdef 4 M ->
  exists r, prefactor t v L0 Lm g HG M = Some r /\ 0 < r.
Proof.
  intros U V G N0 Nm PH PM. unfold prefactor. destruct (posdef_detm 4 _ (posdef_F t n U)) as [df [-> Pdf]]. destruct (posdef_detm 8 _ PH) as [dh [-> Pdh]]. cbn [ob].
  destruct (posdef_detm 4 _ PM) as [dm [-> Pdm]]. destruct (Rmon_ok t v L0 Lm g n U V G N0 Nm) as [rm [-> Prm]]. cbn [ob].
  destruct (tan_sin_pos (g_tm g) (gg_cm g G) (gg_sm g G)) as [Tm Ts]. destruct (tan_sin_pos (g_ta g) (gg_ca g G) (gg_sa g G)) as [Ta Tsa].
  assert (Ki := gg_ki g G). assert (Kf := gg_kf g G). assert (P := PI_RGT_0). assert (Sm := gg_sm g G). assert (Sa := gg_sa g G).
  set (R0 := g_ki g ^ 3 / tan (g_tm g) * (g_kf g ^ 3 / tan (g_ta g)) * (2 * PI) ^ 4 / (64 * PI ^ 2 * sin (g_tm g) * sin (g_ta g))).
  assert (PR : 0 < R0).
  { replace R0 with (g_ki g ^ 3 * g_kf g ^ 3 * (PI ^ 2 / 4) * ((1 / (tan (g_tm g) * sin (g_tm g))) * (1 / (tan (g_ta g) * sin (g_ta g))))) by (unfold R0; field; repeat split; auto; lra).
    assert (0 < g_ki g ^ 3) by (now apply pow_lt). assert (0 < g_kf g ^ 3) by (now apply pow_lt). assert (0 < PI ^ 2) by (now apply pow_lt).
    apply Rmult_lt_0_compat; [apply Rmult_lt_0_compat; [now apply Rmult_lt_0_compat|lra]|now apply Rmult_lt_0_compat]. }
  assert (PS : 0 < R0 * sqrt (df / dh)) by (apply Rmult_lt_0_compat; auto; apply sqrt_lt_R0; now apply Rdiv_lt_0_compat).
  assert (Fin : forall r, 0 < r -> 0 < r / (2 * PI) ^ 2 * sqrt dm * g_kf g / g_ki g).
  { intros r Pr. apply Rdiv_lt_0_compat; auto. apply Rmult_lt_0_compat; auto. apply Rmult_lt_0_compat; [|now apply sqrt_lt_R0]. apply Rdiv_lt_0_compat; auto. apply pow_lt. lra. }
  destruct (moncor t =? 1)%Z; cbn [ob]; eexists; (split; [reflexivity|]); apply Fin; auto. apply Rmult_lt_0_compat; auto. now apply Rdiv_lt_0_compat.
Qed.
Lemma posdef_entry n M i : posdef n M -> (i < n)%nat -> 0 < M i i.
Proof.
  intros [S P] L. assert (H := P (idm i) ltac:(exists i; split; auto; unfold idm; rewrite Nat.eqb_refl; lra)).
  unfold qf in H. replace (M i i) with (sum n (fun a => sum n (fun b => idm i a * M a b * idm i b))); auto.
  transitivity (sum n (fun a => idm i a * sum n (fun b => idm i b * M a b))).
  - apply sum_ext. intros a _. rewrite <- sum_scal. apply sum_ext. intros. ring.
  - rewrite sum_delta by auto. now rewrite sum_delta.
Qed.
Lemma mosaic_ok t q Mi M R0 : posdef 4 Mi -> posdef 4 M -> 0 < R0 -> exists r M', with_mosaic t q Mi M R0 = Some (r, M') /\ 0 < r /\ posdef 4 M'.
Proof.
  intros PMi PM PR. unfold with_mosaic. destruct (s_mosaic t) as [m|]; [|eauto]. set (e := m * CONVERT1). set (ev := match s_vmosaic t with Some x => x * CONVERT1 | None => e end).
  assert (D : forall x, 0 <= qf 4 (diag [0; q ^ 2 * e ^ 2; q ^ 2 * ev ^ 2; 0]) x).
  { intros x. rewrite qf_diag. apply sum_nonneg. intros i L. apply Rmult_le_pos; [|apply pow2_ge_0]. do 4 (destruct i as [|i]; [cbn [nth]; try lra; apply Rmult_le_pos; apply pow2_ge_0|]). lia. }
  destruct (minv_posdef 4 _ (posdef_add_nonneg 4 Mi _ PMi (symm_diag 4 _) D)) as [M' [-> [_ PM']]]. cbn [ob]. eexists _, _. split; [reflexivity|]. split; auto.
  assert (E1 := posdef_entry 4 M 1 PM ltac:(lia)). assert (E2 := posdef_entry 4 M 2 PM ltac:(lia)).
  apply Rdiv_lt_0_compat; auto. apply sqrt_lt_R0. assert (0 <= (q * e) ^ 2) by apply pow2_ge_0. assert (0 <= (q * ev) ^ 2) by apply pow2_ge_0.
  apply Rmult_lt_0_compat; nra.
Qed.
Lemma reflec_pos t v g n KT KQ : usable t n -> 0 < KT * KQ -> good_geom g -> 0 < etaa t -> x_tau (t_ana t) / 2 < g_kf g -> 0 < reflectivity t v g KT KQ.
Proof.
  intros U K G Ea Ta. unfold reflectivity. cbv zeta. set (toa := x_tau (t_ana t) / 2 / sqrt (g_kf g ^ 2 - (x_tau (t_ana t) / 2) ^ 2)).
  assert (Tp : 0 < x_tau (t_ana t)) by (destruct U as (_ & _ & (X & _) & _); auto).
  assert (P : 0 < toa). { unfold toa. apply Rdiv_lt_0_compat; [lra|]. apply sqrt_lt_R0. nra. }
  set (sm := if Rlt_dec _ _ then _ else _). assert (S2 : 0 < sqrt (2 * PI)) by (apply sqrt_lt_R0; assert (X := PI_RGT_0); lra).
  assert (W : forall k, 0 < exp (- (INR (S k) / 200 * sqrt (2 * ln 2) * sm) ^ 2 / 2 / etaa t ^ 2)) by (intros; apply exp_pos).
  set (wd := fun k => exp (- (INR (S k) / 200 * sqrt (2 * ln 2) * sm) ^ 2 / 2 / etaa t ^ 2)) in *.
  assert (Sd : forall k, 0 < KT * (KQ * toa) * wd k / etaa t / sqrt (2 * PI)).
  { intros k. apply Rdiv_lt_0_compat; auto. apply Rdiv_lt_0_compat; auto. apply Rmult_lt_0_compat; [|apply W]. rewrite <- Rmult_assoc. now apply Rmult_lt_0_compat. }
  apply Rdiv_lt_0_compat; [|apply (sum_pos 200 wd 0); [intros; left; apply W|lia|apply W]].
  assert (Rt : forall k, 0 < (if Req_EM_T (KT * (KQ * toa) * wd k / etaa t / sqrt (2 * PI)) 0 then 0 else 1 / (1 + 1 / (KT * (KQ * toa) * wd k / etaa t / sqrt (2 * PI))))).
  { intros k. specialize (Sd k). destruct (Req_EM_T _ 0); [lra|]. apply Rdiv_lt_0_compat; [lra|]. assert (0 < 1 / (KT * (KQ * toa) * wd k / etaa t / sqrt (2 * PI))) by (apply Rdiv_lt_0_compat; lra). lra. }
  apply (sum_pos 200 _ 0%nat); [intros; left; apply Rt|lia|apply Rt].
Qed.

Lemma etaa_pos t : 0 < x_mosaic (t_ana t) -> 0 < etaa t.
Proof. intros. apply Rmult_lt_0_compat; auto. apply C1_pos. Qed.
Lemma at_ok t v L0 L1 L2 L3 Lm g sh n : usable t n -> vars_ok v -> good_geom g -> posdef 3 sh -> L0 <> 0 -> L1 <> 0 -> L2 <> 0 -> L3 <> 0 -> Lm <> 0 -> x_tau (t_ana t) / 2 < g_kf g ->
  exists r M, resolution_at t v (L0, L1, L2, L3, Lm) g sh = Some (r, M) /\ 0 < r /\ posdef 4 M.
Proof.
  intros U V G S N0 N1 N2 N3 Nm K. unfold resolution_at. destruct (minv_posdef 13 _ (posdef_Sinv t g n sh U S)) as [Si [-> _]]. cbn [ob].
  destruct (Ninv_ok t v L0 L1 L2 L3 g sh n U V G S N0 N1 N2 N3) as [N [HG [-> [PN PH]]]]. cbn [ob].
  assert (PMi : posdef 4 (Minv g N)) by (apply posdef_congr; auto; now apply rank_B).
  destruct (minv_posdef 4 _ PMi) as [M [-> [_ PM]]]. cbn [ob]. destruct (prefactor_ok t v L0 Lm g n HG M U V G N0 Nm PH PM) as [r [-> Pr]]. cbn [ob].
  destruct (mosaic_ok t (g_q g) _ M r PMi PM Pr) as [r' [M' [-> [Pr' PM']]]]. cbn [ob].
  destruct (t_thickness t) as [KT|] eqn:E1; [|eauto]. destruct (t_Q t) as [KQ|] eqn:E2; [|eauto]. eexists _, _. split; [reflexivity|]. split; auto. apply Rmult_lt_0_compat; auto.
  assert (U' := U). destruct U' as (_ & _ & _ & _ & _ & _ & _ & _ & _ & U'). rewrite E1, E2 in U'. apply (reflec_pos t v g n); try tauto. now apply etaa_pos.
Qed.

(** The wavevectors, and when neutrons get from source to detector. *)
Definition kin (t : tas) (w : R) : R := sqrt (fst (energies t w) / CONVERT2).
Definition kfin (t : tas) (w : R) : R := sqrt (snd (energies t w) / CONVERT2).
Definition reachable (t : tas) (p : R * R) : Prop :=
  let '(q, w) := p in
  0 < fst (energies t w) /\ 0 < snd (energies t w) /\ x_tau (t_mono t) < 2 * kin t w /\ x_tau (t_ana t) < 2 * kfin t w /\ Rabs (kin t w - kfin t w) < q < kin t w + kfin t w.
Definition geom_of (t : tas) (q w : R) : geom :=
  let ki := kin t w in let kf := kfin t w in
  let s2 := acos ((ki ^ 2 + kf ^ 2 - q ^ 2) / (2 * ki * kf)) * s_dir t in
  mkG q ki kf (asin (x_tau (t_mono t) / (2 * ki)) * x_dir (t_mono t)) (asin (x_tau (t_ana t) / (2 * kf)) * x_dir (t_ana t)) s2
    (MatModel.atan2 (- kf * sin s2) (ki - kf * cos s2)).
Lemma k_pos e : 0 < e -> 0 < sqrt (e / CONVERT2).
Proof. intros. apply sqrt_lt_R0. apply Rdiv_lt_0_compat; auto. apply CONVERT2_pos. Qed.
Lemma bragg tau k s : 0 < tau -> tau < 2 * k -> s = 1 \/ s = -1 -> 0 < cos (asin (tau / (2 * k)) * s) /\ sin (asin (tau / (2 * k)) * s) <> 0 /\ between (tau / (2 * k)) = true.
Proof.
  intros T K S. assert (B : 0 < tau / (2 * k) < 1). { split; [apply Rdiv_lt_0_compat; lra|]. apply (Rmult_lt_reg_r (2 * k)); [lra|]; unfold Rdiv; rewrite Rmult_assoc, Rinv_l; lra. }
  assert (C : 0 < cos (asin (tau / (2 * k)))). { rewrite cos_asin by lra. apply sqrt_lt_R0. unfold Rsqr. nra. }
  assert (D : sin (asin (tau / (2 * k))) = tau / (2 * k)) by (apply sin_asin; lra).
  split; [|split].
  - destruct S as [-> | ->]; [now rewrite Rmult_1_r|]. replace (asin (tau / (2 * k)) * -1) with (- asin (tau / (2 * k))) by ring. now rewrite cos_neg.
  - destruct S as [-> | ->]; [rewrite Rmult_1_r; lra|]. replace (asin (tau / (2 * k)) * -1) with (- asin (tau / (2 * k))) by ring. rewrite sin_neg. lra.
  - unfold between. destruct (Rlt_dec 0 _); [|lra]. destruct (Rlt_dec _ 1); [auto|lra].
Qed.
Lemma triangle ki kf q : 0 < ki -> 0 < kf -> Rabs (ki - kf) < q < ki + kf -> -1 < (ki ^ 2 + kf ^ 2 - q ^ 2) / (2 * ki * kf) < 1.
Proof.
  intros A B [C D]. apply Rabs_def2 in C. assert (P : 0 < 2 * ki * kf) by nra. set (x := (ki ^ 2 + kf ^ 2 - q ^ 2) / (2 * ki * kf)).
  assert (E : x * (2 * ki * kf) = ki ^ 2 + kf ^ 2 - q ^ 2) by (unfold x; field; lra). split; nra.
Qed.
Lemma acos_sin x : -1 < x < 1 -> 0 < sin (acos x).
Proof. intros H. rewrite sin_acos by lra. apply sqrt_lt_R0. unfold Rsqr. nra. Qed.
Lemma geom_ok t n q w : usable t n -> reachable t (q, w) -> good_geom (geom_of t q w).
Proof.
  intros (_ & (Tm & _ & _ & Dm' & _) & (Ta & _ & _ & Da & _) & _ & _ & _ & Ds & _) (Ei & Ef & Km & Ka & Tr).
  assert (Pi := k_pos _ Ei). assert (Pf := k_pos _ Ef). fold (kin t w) in Pi. fold (kfin t w) in Pf.
  destruct (bragg _ _ _ Tm Km Dm') as (M1 & M2 & _). destruct (bragg _ _ _ Ta Ka Da) as (A1 & A2 & _). assert (X := triangle _ _ _ Pi Pf Tr). assert (Xs := acos_sin _ X).
  unfold geom_of. set (ki := kin t w) in *. set (kf := kfin t w) in *. set (x := (ki ^ 2 + kf ^ 2 - q ^ 2) / (2 * ki * kf)) in *. cbv zeta. set (s2 := acos x * s_dir t).
  assert (Q : 0 < q) by (assert (Y := Rabs_pos (ki - kf)); lra).
  assert (C2 : cos s2 = x). { unfold s2. destruct Ds as [-> | ->]; [rewrite Rmult_1_r; apply cos_acos; lra|]. replace (acos x * -1) with (- acos x) by ring. rewrite cos_neg. apply cos_acos; lra. }
  assert (S2' : sin s2 <> 0). { unfold s2. destruct Ds as [-> | ->]; [rewrite Rmult_1_r; lra|]. replace (acos x * -1) with (- acos x) by ring. rewrite sin_neg. lra. }
  assert (Ex : x * (2 * ki * kf) = ki ^ 2 + kf ^ 2 - q ^ 2) by (unfold x; field; lra).
  destruct (EllipseProps.atan2_polar (- kf * sin s2) (ki - kf * cos s2)) as [Pc Ps].
  assert (R : sqrt ((ki - kf * cos s2) * (ki - kf * cos s2) + - kf * sin s2 * (- kf * sin s2)) = q).
  { replace ((ki - kf * cos s2) * (ki - kf * cos s2) + - kf * sin s2 * (- kf * sin s2)) with (q * q); [apply sqrt_square; lra|].
    assert (H := sin2_cos2 s2). unfold Rsqr in H. rewrite C2 in *. nra. }
  rewrite R in Pc, Ps. constructor; cbn [g_ki g_kf g_q g_tm g_ta g_2t g_phi]; auto.
  rewrite C2. lra.
Qed.

(** The loop variables after a point that is reached. *)
Definition next (t : tas) (v : loopvars) (w : R) : loopvars :=
  mkV (guided (kin t w) (v_alpha v)) (guided (kin t w) (v_beta v)) (v_mrh v * x_dir (t_mono t)) (v_mrv v * x_dir (t_mono t))
    (v_arh v * x_dir (t_ana t)) (v_arv v * x_dir (t_ana t)) (v_ok v).
Lemma guided_nz k a i : 0 < k -> a i <> 0 -> guided k a i <> 0.
Proof.
  intros K A. unfold guided. destruct (Rlt_dec (a i) 0); auto. assert (S : 0 < sqrt 3) by (apply sqrt_lt_R0; lra). assert (P := PI_RGT_0).
  assert (0 < - a i * / 10 * 60 * (2 * PI / k) / (427 / 1000) / sqrt 3); [|lra]. assert (0 < 2 * PI / k) by (apply Rdiv_lt_0_compat; lra).
  apply Rdiv_lt_0_compat; auto. apply Rdiv_lt_0_compat; [|lra]. apply Rmult_lt_0_compat; lra.
Qed.
Lemma next_ok t v w n : usable t n -> 0 < fst (energies t w) -> vars_ok v -> vars_ok (next t v w).
Proof.
  intros (_ & (_ & _ & _ & Dm' & _) & (_ & _ & _ & Da & _) & _) E (A & B & C & D & F). assert (K := k_pos _ E). fold (kin t w) in K.
  unfold vars_ok, next; cbn [v_alpha v_beta v_mrh v_mrv v_arh v_arv]. split; [intros i L; split; apply guided_nz; auto; apply A; auto|].
  assert (Sm : x_dir (t_mono t) <> 0) by (destruct Dm'; lra). assert (Sa : x_dir (t_ana t) <> 0) by (destruct Da; lra).
  repeat split; apply Rmult_integral_contrapositive_currified; auto.
Qed.
Definition Ls_nz (Ls : R * R * R * R * R) : Prop := let '(L0, L1, L2, L3, Lm) := Ls in L0 <> 0 /\ L1 <> 0 /\ L2 <> 0 /\ L3 <> 0 /\ Lm <> 0.
Lemma nonzero_ok t v Ls n : usable t n -> vars_ok v -> Ls_nz Ls -> nonzero t v Ls = true.
Proof.
  intros U (A & B & C & D & F) L. destruct Ls as [[[[L0 L1] L2] L3] Lm]. destruct L as (N0 & N1 & N2 & N3 & Nm). destruct (mono_eta t n U) as (E1 & E2 & E3 & E4).
  unfold nonzero. apply forallb_forall. intros x H. destruct (Req_EM_T x 0) as [-> |]; auto. exfalso. apply in_app_or in H. destruct H as [H|H]; [|apply in_app_or in H; destruct H as [H|H]].
  - apply in_map_iff in H. destruct H as [i [E I]]. apply in_seq in I. apply (proj1 (A i ltac:(lia))); auto.
  - apply in_map_iff in H. destruct H as [i [E I]]. apply in_seq in I. apply (proj2 (A i ltac:(lia))); auto.
  - simpl in H. intuition.
Qed.
Lemma point_reach t Ls v i q w n sh : usable t n -> sshapes t i = Some sh -> vars_ok v -> v_ok v = true -> Ls_nz Ls -> reachable t (q, w) ->
  point t Ls v i q w = Ok (next t v w, resolution_at t (next t v w) Ls (geom_of t q w) sh).
Proof.
  intros U S V Vo L R. assert (Nx := next_ok t v w n U (proj1 R) V). assert (Nz := nonzero_ok t (next t v w) Ls n U Nx L).
  destruct U as (_ & (Tm & _ & _ & Dm' & _) & (Ta & _ & _ & Da & _) & _). destruct R as (Ei & Ef & Km & Ka & Tr).
  assert (Pi := k_pos _ Ei). assert (Pf := k_pos _ Ef). fold (kin t w) in Pi. fold (kfin t w) in Pf. assert (X := triangle _ _ _ Pi Pf Tr).
  destruct (bragg _ _ _ Tm Km Dm') as (_ & _ & B1). destruct (bragg _ _ _ Ta Ka Da) as (_ & _ & B2).
  unfold point. rewrite S. unfold kin, kfin, geom_of in *. unfold kin, kfin in *. unfold next in *. unfold kin in *. destruct (energies t w) as [ei ef]. cbn [fst snd] in *.
  destruct (Rlt_dec 0 ei); [|lra]. destruct (Rlt_dec ef 0); [lra|]. destruct (Req_EM_T (sqrt (ef / CONVERT2)) 0); [lra|].
  cbv zeta in *. unfold arccos_imag. destruct (Rle_dec (Rabs _) 1) as [Y|Y]; [|exfalso; apply Y; apply Rabs_le; lra].
  destruct (Rlt_dec (/ 10 ^ 12) 0) as [Z|Z]; [exfalso; assert (0 < / 10 ^ 12) by (apply Rinv_0_lt_compat; apply pow_lt; lra); lra|].
  rewrite B1, B2. rewrite Nz. rewrite Vo. reflexivity.
Qed.
Lemma lengths_ok t n : usable t n -> exists Ls, lengths t = Ok Ls /\ Ls_nz Ls.
Proof.
  intros (_ & _ & _ & _ & _ & _ & _ & _ & A & _). unfold lengths. assert (D : exists Ls, @Ok (R * R * R * R * R) (1, 1, 1, 1, 1) = Ok Ls /\ Ls_nz Ls) by (eexists; split; [reflexivity|]; simpl; repeat split; lra).
  destruct (t_arms t) as [l|]; auto. destruct (is_num (meth t) 1) eqn:E; auto.
  assert (M : t_method t = Some (MNum 1)). { unfold meth in E. destruct (t_method t) as [[z|s]|]; simpl in E; try discriminate. apply Z.eqb_eq in E. now subst z. }
  destruct (A M) as [A1 A2]. destruct l as [|L0 [|L1 [|L2 [|L3 l]]]]; simpl in A1; try lia.
  inversion A2 as [|? ? H0 A3]; subst. inversion A3 as [|? ? H1 A4]; subst. inversion A4 as [|? ? H2 A5]; subst. inversion A5 as [|? ? H3 A6]; subst.
  destruct l as [|Lm l]; eexists; (split; [reflexivity|]); simpl; repeat split; auto. now inversion A6.
Qed.
Lemma start_ok t n : usable t n -> vars_ok (start t) /\ v_ok (start t) = true.
Proof.
  intros (H & (_ & _ & _ & _ & _ & _ & _ & M1 & M2) & (_ & _ & _ & _ & _ & _ & _ & A1 & A2) & _). split; auto. assert (C := C1_pos).
  assert (X : forall o, size_ok o -> opt (10 ^ 6) o <> 0) by (intros [x|] K; simpl in *; auto; lra).
  unfold vars_ok, start. cbn [v_alpha v_beta v_mrh v_mrv v_arh v_arv]. split; [|repeat split; apply X; auto].
  intros i L. destruct (H i L) as [Ha Hb]. split; [|apply Rmult_integral_contrapositive_currified; auto; lra].
  assert (P : t_hcol t i * CONVERT1 <> 0) by (apply Rmult_integral_contrapositive_currified; auto; lra).
  destruct (_ && _)%bool; auto. apply Rmult_integral_contrapositive_currified; auto. assert (0 < sqrt (8 * ln 2 / 12)); [|lra]. apply sqrt_lt_R0.
  assert (0 < ln 2) by (rewrite <- ln_1; apply ln_increasing; lra). lra.
Qed.

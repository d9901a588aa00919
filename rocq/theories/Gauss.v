(** The Gaussian integral, used to state projections as integrals (MatProps). *)
From Coq Require Import Reals Lra Lia.
From Coquelicot Require Import Coquelicot.
Local Open Scope R_scope.

Definition ge (t : R) : R := exp (- (t * t)).
Definition F (x : R) : R := RInt ge 0 x.
Definition H (x t : R) : R := exp (- (x * x) * (1 + t * t)) / (1 + t * t).
Definition G (x : R) : R := RInt (H x) 0 1.
Ltac real := match goal with |- @eq _ ?a ?b => change (@eq R a b) end.
Lemma RIs (f : R -> R) k a b : ex_RInt f a b -> RInt (fun t => k * f t) a b = k * RInt f a b.
Proof. intros E. exact (RInt_scal f a b k E). Qed.
Lemma RIl (f : R -> R) u v a b : ex_RInt f (u * a + v) (u * b + v) -> RInt (fun t => u * f (u * t + v)) a b = RInt f (u * a + v) (u * b + v).
Proof. intros E. exact (RInt_comp_lin f u v a b E). Qed.
Lemma RIk (c a b : R) : RInt (fun _ => c) a b = (b - a) * c.
Proof. exact (RInt_const a b c). Qed.
Lemma RIe (f g : R -> R) a b : (forall t, f t = g t) -> RInt f a b = RInt g a b.
Proof. intros E. apply RInt_ext. intros; apply E. Qed.
Lemma pos1 t : 0 < 1 + t * t. Proof. nra. Qed.
Lemma ge_cont x : continuous ge x.
Proof. apply (ex_derive_continuous ge). unfold ge. auto_derive. auto. Qed.
Lemma F_derive x : is_derive F x (ge x).
Proof. unfold F. apply (is_derive_RInt ge (RInt ge 0) 0 x); [|apply ge_cont]. exists (mkposreal 1 Rlt_0_1). intros y _. apply (@RInt_correct R_CompleteNormedModule). apply (@ex_RInt_continuous R_CompleteNormedModule). intros z _. apply ge_cont. Qed.
Lemma H_cont x t : continuous (H x) t.
Proof. apply (ex_derive_continuous (H x)). unfold H. auto_derive. assert (P := pos1 t). lra. Qed.
Definition dH (x t : R) : R := - (2 * x) * exp (- (x * x) * (1 + t * t)).
Lemma H_derive x t : is_derive (fun u => H u t) x (dH x t).
Proof. assert (P := pos1 t). unfold H, dH. auto_derive; [lra|]. field. lra. Qed.
Lemma dH_cont x t : continuity_2d_pt dH x t.
Proof.
  unfold dH. apply continuity_2d_pt_mult.
  - apply (continuity_1d_2d_pt_comp (fun u => - (2 * u)) (fun u _ => u)); [|apply continuity_2d_pt_id1]. apply derivable_continuous_pt. reg.
  - apply (continuity_1d_2d_pt_comp exp (fun u v => - (u * u) * (1 + v * v))); [apply derivable_continuous_pt; reg|].
    apply continuity_2d_pt_mult.
    + apply continuity_2d_pt_opp. apply continuity_2d_pt_mult; apply continuity_2d_pt_id1.
    + apply continuity_2d_pt_plus; [apply continuity_2d_pt_const|apply continuity_2d_pt_mult; apply continuity_2d_pt_id2].
Qed.
Lemma G_derive x : is_derive G x (- (2 * ge x * F x)).
Proof.
  assert (D : is_derive G x (RInt (fun t => Derive (fun u => H u t) x) 0 1)).
  { unfold G. apply (is_derive_RInt_param H 0 1 x).
    - exists (mkposreal 1 Rlt_0_1). intros y _ t _. exists (dH y t). apply H_derive.
    - intros t _. apply (continuity_2d_pt_ext dH); [|apply dH_cont]. intros u v. symmetry. apply is_derive_unique, H_derive.
    - exists (mkposreal 1 Rlt_0_1). intros y _. apply (@ex_RInt_continuous R_CompleteNormedModule). intros z _. apply H_cont. }
  replace (- (2 * ge x * F x)) with (RInt (fun t => Derive (fun u => H u t) x) 0 1); [exact D|].
  transitivity (RInt (fun t => - (2 * ge x) * (x * ge (x * t + 0))) 0 1).
  - apply RInt_ext. intros t _. transitivity (dH x t); [apply is_derive_unique, H_derive|]. unfold dH, ge. replace (- (x * x) * (1 + t * t)) with (- (x * x) + - ((x * t + 0) * (x * t + 0))) by ring. rewrite exp_plus. real. ring.
  - assert (E : forall u, ex_RInt ge 0 u) by (intros; apply (@ex_RInt_continuous R_CompleteNormedModule); intros; apply ge_cont).
    assert (K : ex_RInt (fun t => x * ge (x * t + 0)) 0 1).
    { apply (@ex_RInt_continuous R_CompleteNormedModule). intros z _. apply (ex_derive_continuous (fun t => x * ge (x * t + 0))). unfold ge. auto_derive. auto. }
    rewrite (RIs (fun t => x * ge (x * t + 0))) by exact K. rewrite RIl by (apply (@ex_RInt_continuous R_CompleteNormedModule); intros; apply ge_cont). rewrite Rmult_0_r, Rplus_0_r, Rmult_1_r, Rplus_0_r. unfold F. real. ring.
Qed.
Lemma G0 : G 0 = PI / 4.
Proof.
  unfold G. transitivity (RInt (fun t => / (1 + t ^ 2)) 0 1).
  - apply RInt_ext. intros t _. unfold H. replace (- (0 * 0) * (1 + t * t)) with 0 by ring. rewrite exp_0. assert (P := pos1 t). real. field. nra.
  - apply is_RInt_unique. replace (PI / 4) with (minus (atan 1) (atan 0)).
    + apply (is_RInt_derive atan (fun t => / (1 + t ^ 2))).
      * intros t _. apply is_derive_Reals. apply derivable_pt_lim_atan.
      * intros t _. apply (ex_derive_continuous (fun t => / (1 + t ^ 2))). auto_derive. nra.
    + rewrite atan_1, atan_0. unfold minus, plus, opp. simpl. lra.
Qed.
Lemma F0 : F 0 = 0. Proof. apply (@RInt_point R_CompleteNormedModule). Qed.
Lemma FG x : F x * F x + G x = PI / 4.
Proof.
  assert (D : forall y, is_derive (fun y => F y * F y + G y) y 0).
  { intros y. evar_last.
    - apply (is_derive_plus (fun y => F y * F y) G); [apply (is_derive_mult F F); [apply F_derive|apply F_derive|intros; apply Rmult_comm]|apply G_derive].
    - unfold plus, mult. simpl. unfold plus, mult. simpl. ring. }
  assert (C : forall a b, a < b -> F a * F a + G a = F b * F b + G b).
  { intros a b L. assert (X := eq_is_derive (fun y => F y * F y + G y) a b). symmetry. symmetry. apply X; auto. }
  assert (Z : F 0 * F 0 + G 0 = PI / 4) by (rewrite F0, G0; ring). destruct (Rtotal_order x 0) as [L|[->|L]]; auto; [rewrite (C x 0 L)|rewrite <- (C 0 x L)]; exact Z.
Qed.
Lemma G_bounds x : 0 <= G x <= exp (- (x * x)).
Proof.
  assert (E : ex_RInt (H x) 0 1) by (apply (@ex_RInt_continuous R_CompleteNormedModule); intros; apply H_cont). assert (Z : RInt (fun _ => 0) 0 1 = 0) by (rewrite RIk; real; ring).
  unfold G. split.
  - apply Rle_trans with (RInt (fun _ => 0) 0 1); [apply Req_le; symmetry; exact Z|]. apply RInt_le; try lra; [apply ex_RInt_const|exact E|]. intros t _. unfold H. assert (P := pos1 t). apply Rlt_le, Rdiv_lt_0_compat; [apply exp_pos|lra].
  - replace (exp (- (x * x))) with (RInt (fun _ => exp (- (x * x))) 0 1) by (rewrite RIk; real; ring).
    apply RInt_le; try lra; [exact E|apply ex_RInt_const|]. intros t _. unfold H. assert (P := pos1 t).
    assert (X : exp (- (x * x) * (1 + t * t)) <= exp (- (x * x))). { destruct (Req_dec (x * x * (t * t)) 0) as [W|W]; [apply Req_le; f_equal; lra|]. apply Rlt_le, exp_increasing. assert (0 <= x * x * (t * t)) by (apply Rmult_le_pos; nra). lra. }
    apply Rle_trans with (exp (- (x * x) * (1 + t * t)) / 1).
    + unfold Rdiv. apply Rmult_le_compat_l; [apply Rlt_le, exp_pos|]. apply Rinv_le_contravar; nra.
    + lra.
Qed.
Lemma F_pos x : 0 <= x -> 0 <= F x.
Proof. intros L. unfold F. assert (Z : RInt (fun _ => 0) 0 x = 0) by (rewrite RIk; real; ring). apply Rle_trans with (RInt (fun _ => 0) 0 x); [apply Req_le; symmetry; exact Z|]. apply RInt_le; auto; [apply ex_RInt_const|apply (@ex_RInt_continuous R_CompleteNormedModule); intros; apply ge_cont|]. intros; apply Rlt_le, exp_pos. Qed.
Lemma F_lim : is_lim F p_infty (sqrt PI / 2).
Proof.
  assert (LG : is_lim G p_infty 0).
  { apply (is_lim_le_le_loc (fun _ => 0) (fun x => exp (- x))).
    - exists 1. intros x L. destruct (G_bounds x) as [A B]. split; auto. eapply Rle_trans; [exact B|]. apply Rlt_le, exp_increasing. nra.
    - apply is_lim_const.
    - apply (is_lim_comp exp (fun x => - x) p_infty 0 m_infty); [apply is_lim_exp_m|apply (is_lim_opp (fun x => x) p_infty p_infty), is_lim_id|]. exists 0. intros y _. discriminate. }
  replace (sqrt PI / 2) with (sqrt (PI / 4 - 0)).
  - apply (is_lim_ext_loc (fun x => sqrt (PI / 4 - G x))).
    + exists 0. intros x L. rewrite <- (FG x). replace (F x * F x + G x - G x) with (F x * F x) by ring. apply sqrt_square, F_pos. lra.
    + apply (is_lim_comp_continuous (fun x => PI / 4 - G x) sqrt p_infty (PI / 4 - 0)).
      * apply (is_lim_minus (fun _ => PI / 4) G p_infty (PI / 4) 0); [apply is_lim_const|exact LG|reflexivity].
      * apply continuity_pt_filterlim. apply continuity_pt_sqrt. assert (P := PI_RGT_0). lra.
  - rewrite Rminus_0_r. unfold Rdiv at 1. rewrite sqrt_mult; [|apply Rlt_le, PI_RGT_0|lra]. replace (/ 4) with ((/ 2) * (/ 2)) by field. rewrite sqrt_square by lra. reflexivity.
Qed.
Lemma F_odd x : F (- x) = - F x.
Proof.
  unfold F. assert (L := RIl ge (-1) 0 0 x). replace (-1 * 0 + 0) with 0 in L by ring. replace (-1 * x + 0) with (- x) in L by ring.
  rewrite <- L by (apply (@ex_RInt_continuous R_CompleteNormedModule); intros; apply ge_cont).
  rewrite (RIe _ (fun y => -1 * ge y)) by (intros; unfold ge; f_equal; f_equal; ring). rewrite RIs by (apply (@ex_RInt_continuous R_CompleteNormedModule); intros; apply ge_cont). ring.
Qed.

(** The integral of r exp(-(a/2) (t+c)^2 - q/2) over the line. *)
Theorem gauss_integral : forall a c r q, 0 < a ->
  is_lim (fun T => RInt (fun t => r * exp (- / 2 * (q + a * (t + c) ^ 2))) (- T) T) p_infty (sqrt (2 * PI / a) * r * exp (- / 2 * q)).
Proof.
  intros a c r q Pa. set (u := sqrt (a / 2)). assert (Pu : 0 < u) by (apply sqrt_lt_R0; lra). assert (Eu : u * u = a / 2) by (apply sqrt_sqrt; lra).
  set (k := r * exp (- / 2 * q) / u).
  assert (I : forall T, RInt (fun t => r * exp (- / 2 * (q + a * (t + c) ^ 2))) (- T) T = k * (F (u * T + u * c) + F (u * T + - (u * c)))).
  { intros T. transitivity (RInt (fun t => k * (u * ge (u * t + u * c))) (- T) T).
    - apply RIe. intros t. unfold k, ge. replace (- / 2 * (q + a * (t + c) ^ 2)) with (- / 2 * q + - ((u * t + u * c) * (u * t + u * c))).
      + rewrite exp_plus. field. lra.
      + replace ((u * t + u * c) * (u * t + u * c)) with (u * u * ((t + c) * (t + c))) by ring. rewrite Eu. field.
    - rewrite (RIs (fun t => u * ge (u * t + u * c))). 2:{ apply (@ex_RInt_continuous R_CompleteNormedModule). intros z _. apply (ex_derive_continuous (fun t => u * ge (u * t + u * c))). unfold ge. auto_derive. auto. }
      rewrite RIl by (apply (@ex_RInt_continuous R_CompleteNormedModule); intros; apply ge_cont). f_equal.
      rewrite <- (RInt_Chasles ge (u * - T + u * c) 0 (u * T + u * c)) by (apply (@ex_RInt_continuous R_CompleteNormedModule); intros; apply ge_cont).
      rewrite <- (opp_RInt_swap ge) by (apply (@ex_RInt_continuous R_CompleteNormedModule); intros; apply ge_cont). unfold plus, opp. simpl. fold (F (u * T + u * c)). fold (F (u * - T + u * c)).
      replace (u * - T + u * c) with (- (u * T + - (u * c))) by ring. rewrite F_odd. ring. }
  apply (is_lim_ext (fun T => k * (F (u * T + u * c) + F (u * T + - (u * c))))); [intros T; symmetry; apply I|].
  assert (L : forall v, is_lim (fun T => F (u * T + v)) p_infty (sqrt PI / 2)).
  { intros v. apply (is_lim_comp F (fun T => u * T + v) p_infty (sqrt PI / 2) p_infty); [apply F_lim| |exists 0; intros; discriminate].
    intros P [M HM]. exists ((M - v) / u). intros x Lx. apply HM. apply (Rmult_lt_compat_l u) in Lx; auto. replace (u * ((M - v) / u)) with (M - v) in Lx by (field; lra). lra. }
  replace (sqrt (2 * PI / a) * r * exp (- / 2 * q)) with (k * (sqrt PI / 2 + sqrt PI / 2)).
  - apply (is_lim_scal_l (fun T => F (u * T + u * c) + F (u * T + - (u * c))) k p_infty (sqrt PI / 2 + sqrt PI / 2)). apply (is_lim_plus _ _ p_infty (sqrt PI / 2) (sqrt PI / 2)); [apply L|apply L|reflexivity].
  - unfold k. replace (2 * PI / a) with (PI / (a / 2)) by (field; lra). rewrite <- Eu. rewrite sqrt_div; [|apply Rlt_le, PI_RGT_0|nra]. rewrite sqrt_square by lra. field. lra.
Qed.
Print Assumptions gauss_integral.

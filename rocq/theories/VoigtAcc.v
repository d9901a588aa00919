(** How close the line shape of SmaModel.v is to the convolution of a Gaussian with a Lorentzian; the parts used by VoigtAccProps.v. *)
From Coq Require Import Reals.
From Coquelicot Require Import Coquelicot.
From Coq Require Import List ZArith Lra Lia Psatz Bool.
From Verif Require Import Gauss NumBounds SmaModel VoigtDisk VoigtCert.
Import ListNotations.
Local Open Scope R_scope.

(** * Derivatives of functions from the reals to the complex numbers *)
Definition cder (f : R -> C) (s : R) (d : C) : Prop := is_derive (fun x => fst (f x)) s (fst d) /\ is_derive (fun x => snd (f x)) s (snd d).
Lemma cder_eq f s d e : cder f s d -> d = e -> cder f s e. Proof. intros H <-. exact H. Qed.
Lemma rder_const (c s : R) : is_derive (fun _ : R => c) s 0. Proof. apply (is_derive_const (K := R_AbsRing) (V := R_NormedModule) c s). Qed.
Lemma cder_const c s : cder (fun _ => c) s 0%C. Proof. split; [apply (rder_const (fst c) s)|apply (rder_const (snd c) s)]. Qed.
Lemma cder_plus f g s d e : cder f s d -> cder g s e -> cder (fun x => f x + g x)%C s (d + e)%C.
Proof. intros [F1 F2] [G1 G2]. split; cbn [fst snd Cplus]; [apply (is_derive_plus _ _ _ _ _ F1 G1)|apply (is_derive_plus _ _ _ _ _ F2 G2)]. Qed.
Lemma cder_opp f s d : cder f s d -> cder (fun x => - f x)%C s (- d)%C.
Proof. intros [F1 F2]. split; cbn [fst snd Copp]; [apply (is_derive_opp _ _ _ F1)|apply (is_derive_opp _ _ _ F2)]. Qed.
Lemma cder_minus f g s d e : cder f s d -> cder g s e -> cder (fun x => f x - g x)%C s (d - e)%C.
Proof. intros F G. apply cder_plus; [exact F|apply cder_opp, G]. Qed.
Lemma rder_mult (f g : R -> R) (s d e : R) : is_derive f s d -> is_derive g s e -> is_derive (fun x => f x * g x) s (d * g s + f s * e).
Proof. intros F G. apply (is_derive_mult f g s d e F G). intros; apply Rmult_comm. Qed.
Lemma rder_ext (f g : R -> R) (s d e : R) : is_derive f s d -> (forall x, f x = g x) -> d = e -> is_derive g s e.
Proof. intros F E <-. apply (is_derive_ext f); auto. Qed.
Lemma rder_plus (f g : R -> R) (s d e : R) : is_derive f s d -> is_derive g s e -> is_derive (fun x => f x + g x) s (d + e).
Proof. intros F G. apply (is_derive_plus _ _ _ _ _ F G). Qed.
Lemma rder_minus (f g : R -> R) (s d e : R) : is_derive f s d -> is_derive g s e -> is_derive (fun x => f x - g x) s (d - e).
Proof. intros F G. apply (is_derive_minus _ _ _ _ _ F G). Qed.
Lemma cder_mult f g s d e : cder f s d -> cder g s e -> cder (fun x => f x * g x)%C s (d * g s + f s * e)%C.
Proof.
  intros [F1 F2] [G1 G2]. split; cbn [fst snd Cmult Cplus].
  - eapply rder_ext; [apply (rder_minus _ _ _ _ _ (rder_mult _ _ _ _ _ F1 G1) (rder_mult _ _ _ _ _ F2 G2))|reflexivity|ring].
  - eapply rder_ext; [apply (rder_plus _ _ _ _ _ (rder_mult _ _ _ _ _ F1 G2) (rder_mult _ _ _ _ _ F2 G1))|reflexivity|ring].
Qed.
Definition sq (z : C) : R := fst z * fst z + snd z * snd z.
Lemma sq_cmod z : sq z = Cmod z ^ 2. Proof. unfold sq, Cmod. rewrite pow2_sqrt; [simpl; ring|apply Rplus_le_le_0_compat; apply pow2_ge_0]. Qed.
Lemma cder_div f g s d e : 0 < sq (g s) -> cder f s d -> cder g s e -> cder (fun x => f x / g x)%C s ((d * g s - f s * e) / (g s * g s))%C.
Proof.
  intros P F [G1 G2]. set (n := fun x => sq (g x)).
  assert (Hn : is_derive n s (2 * (fst (g s) * fst e + snd (g s) * snd e))).
  { eapply rder_ext; [apply (rder_plus _ _ _ _ _ (rder_mult _ _ _ _ _ G1 G1) (rder_mult _ _ _ _ _ G2 G2))|intros x; unfold n, sq; reflexivity|ring]. }
  assert (Nz : n s <> 0) by (unfold n; lra).
  assert (I : cder (fun x => / g x)%C s (- (e / (g s * g s)))%C).
  { split; cbn [fst snd Cinv].
    - eapply rder_ext; [apply (is_derive_div _ _ _ _ _ G1 Hn Nz)|intros x; unfold n, sq; cbn beta; f_equal; ring|].
      unfold n in *. unfold sq in *. cbn [fst snd Copp Cdiv Cmult Cinv]. destruct (g s) as [p q]. cbn [fst snd] in *. field. split; nra.
    - eapply rder_ext; [apply (is_derive_opp _ _ _ (is_derive_div _ _ _ _ _ G2 Hn Nz))|intros x; unfold n, sq; cbn beta; unfold opp; simpl; unfold Rdiv; rewrite Ropp_mult_distr_l; f_equal; f_equal; ring|].
      unfold n in *. unfold sq in *. unfold opp. cbn [fst snd Copp Cdiv Cmult Cinv]. simpl. destruct (g s) as [p q]. cbn [fst snd] in *. field. split; nra. }
  eapply cder_eq; [apply (cder_mult _ _ _ _ _ F I)|]. assert (Gz : g s <> 0%C) by (intros Z; rewrite Z in P; unfold sq in P; cbn in P; lra). field. exact Gz.
Qed.
Lemma cder_exp f s d : cder f s d -> cder (fun x => cexp (f x)) s (d * cexp (f s))%C.
Proof.
  intros [F1 F2]. split; cbn [fst snd cexp Cmult].
  - assert (A : is_derive (fun x => exp (fst (f x))) s (fst d * exp (fst (f s)))) by (apply (is_derive_comp exp (fun x => fst (f x))); [apply is_derive_exp|exact F1]).
    assert (B : is_derive (fun x => cos (snd (f x))) s (snd d * - sin (snd (f s)))) by (apply (is_derive_comp cos (fun x => snd (f x))); [apply is_derive_cos|exact F2]).
    eapply rder_ext; [apply (rder_mult _ _ _ _ _ A B)|reflexivity|ring].
  - assert (A : is_derive (fun x => exp (fst (f x))) s (fst d * exp (fst (f s)))) by (apply (is_derive_comp exp (fun x => fst (f x))); [apply is_derive_exp|exact F1]).
    assert (B : is_derive (fun x => sin (snd (f x))) s (snd d * cos (snd (f s)))) by (apply (is_derive_comp sin (fun x => snd (f x))); [apply is_derive_sin|exact F2]).
    eapply rder_ext; [apply (rder_mult _ _ _ _ _ A B)|reflexivity|ring].
Qed.
Lemma zeval_der l p s d : cder p s d -> cder (fun x => zeval l (p x)) s (d * zeval (pder l) (p s))%C.
Proof.
  intros P. induction l as [|a l IH]; [eapply cder_eq; [apply (cder_const 0%C s)|cbn [pder]; rewrite zeval_nil; ring]|].
  eapply cder_eq; [apply (cder_plus _ _ _ _ _ (cder_const (zr a) s) (cder_mult _ _ _ _ _ P IH))|]. cbn [pder]. rewrite padd_ok, zeval_cons, zr_0. ring.
Qed.
Lemma cmod_exp z : Cmod (cexp z) = exp (fst z).
Proof.
  unfold Cmod, cexp. cbn [fst snd]. replace ((exp (fst z) * cos (snd z)) ^ 2 + (exp (fst z) * sin (snd z)) ^ 2) with (exp (fst z) ^ 2) by (assert (H := sin2_cos2 (snd z)); unfold Rsqr in H; simpl; replace (exp (fst z) * cos (snd z) * (exp (fst z) * cos (snd z) * 1) + exp (fst z) * sin (snd z) * (exp (fst z) * sin (snd z) * 1)) with (exp (fst z) * exp (fst z) * (sin (snd z) * sin (snd z) + cos (snd z) * cos (snd z))) by ring; rewrite H; ring).
  apply sqrt_pow2, Rlt_le, exp_pos.
Qed.
Lemma fst_le (z : C) : Rabs (fst z) <= Cmod z.
Proof. unfold Cmod. rewrite <- sqrt_Rsqr_abs. apply sqrt_le_1_alt. unfold Rsqr. assert (H := pow2_ge_0 (snd z)). simpl in *. lra. Qed.

(** * What a bound of the derivative says *)
Lemma mono (f f' : R -> R) (g : R -> R) k S : 0 <= S -> (forall s, 0 <= s <= S -> is_derive f s (f' s)) -> (forall s, 0 <= s <= S -> f' s <= k * g s) -> (forall s : R, continuous g s) ->
  f S - f 0 <= k * RInt g 0 S.
Proof.
  intros HS HD HB HC. set (h := fun s => k * RInt g 0 s - f s).
  assert (HG : forall s, is_derive (fun x => RInt g 0 x) s (g s)). { intros s. apply (is_derive_RInt g _ 0); [|apply HC]. apply filter_forall. intros b. apply (RInt_correct (V := R_CompleteNormedModule)). apply (ex_RInt_continuous (V := R_CompleteNormedModule)). intros; apply HC. }
  assert (Dh : forall s, 0 <= s <= S -> is_derive h s (k * g s - f' s)).
  { intros s Hs. apply rder_minus; [|apply HD, Hs]. eapply rder_ext; [apply (rder_mult (fun _ => k) (fun x => RInt g 0 x) s 0 (g s)); [apply rder_const|apply HG]|reflexivity|ring]. }
  destruct (MVT_gen h 0 S (fun s => k * g s - f' s)) as [c [Hc E]].
  - intros x Hx. apply Dh. rewrite Rmin_left, Rmax_right in Hx; lra.
  - intros x Hx. rewrite Rmin_left, Rmax_right in Hx by lra. apply continuity_pt_filterlim. apply (ex_derive_continuous (K := R_AbsRing) h). eexists. apply Dh, Hx.
  - rewrite Rmin_left, Rmax_right in Hc by lra. assert (B := HB c Hc). unfold h in E. rewrite RInt_point in E. change (zero : R) with 0 in E. assert (0 <= (k * g c - f' c) * (S - 0)) by (apply Rmult_le_pos; lra). lra.
Qed.
Lemma path_bound (E E' : R -> C) (g : R -> R) k S : 0 <= S -> (forall s, 0 <= s <= S -> cder E s (E' s)) -> (forall s, 0 <= s <= S -> Cmod (E' s) <= k * g s) -> (forall s : R, continuous g s) ->
  Cmod (E S - E 0)%C <= k * RInt g 0 S.
Proof.
  intros HS HD HB HC. set (w := (E S - E 0)%C). assert (Z : 0 <= k * RInt g 0 S).
  { assert (M := mono (fun _ => 0) (fun _ => 0) g k S HS (fun s _ => rder_const 0 s) ltac:(intros s Hs; eapply Rle_trans; [apply Cmod_ge_0|apply HB, Hs]) HC). lra. }
  destruct (Req_dec (Cmod w) 0) as [W|W]; [rewrite W; exact Z|]. assert (W0 := Cmod_ge_0 w).
  assert (M := mono (fun s => fst w * fst (E s) + snd w * snd (E s)) (fun s => fst w * fst (E' s) + snd w * snd (E' s)) g (Cmod w * k) S HS).
  assert (M1 : forall s, 0 <= s <= S -> is_derive (fun s => fst w * fst (E s) + snd w * snd (E s)) s (fst w * fst (E' s) + snd w * snd (E' s))).
  { intros s Hs. destruct (HD s Hs) as [D1 D2]. apply rder_plus.
    - eapply rder_ext; [apply (rder_mult (fun _ => fst w) _ s 0 _ (rder_const _ _) D1)|reflexivity|ring].
    - eapply rder_ext; [apply (rder_mult (fun _ => snd w) _ s 0 _ (rder_const _ _) D2)|reflexivity|ring]. }
  assert (M2 : forall s, 0 <= s <= S -> fst w * fst (E' s) + snd w * snd (E' s) <= Cmod w * k * g s).
  { intros s Hs. apply Rle_trans with (Cmod w * Cmod (E' s)); [|rewrite Rmult_assoc; apply Rmult_le_compat_l; [exact W0|apply HB, Hs]].
    assert (C1 : fst w * fst (E' s) + snd w * snd (E' s) = fst (Cmult (fst w, - snd w) (E' s))) by (cbn [fst snd Cmult]; ring). rewrite C1.
    replace (Cmod w) with (Cmod (fst w, - snd w)) by (unfold Cmod; cbn [fst snd]; f_equal; ring). rewrite <- Cmod_mult. eapply Rle_trans; [apply Rle_abs|apply fst_le]. }
  specialize (M M1 M2 HC). cbv beta in M. assert (Q : fst w * fst (E S) + snd w * snd (E S) - (fst w * fst (E 0) + snd w * snd (E 0)) = Cmod w * Cmod w).
  { replace (Cmod w * Cmod w) with (Cmod w ^ 2) by ring. rewrite <- sq_cmod. unfold sq. unfold w at 1 2. unfold w at 2 4. cbn [fst snd Cminus Cplus Copp]. unfold w. cbn [fst snd Cminus Cplus Copp]. ring. }
  rewrite Q in M. apply Rmult_le_reg_l with (Cmod w); [lra|]. lra.
Qed.

(** * The Gaussian integral over half the line *)
Definition ga (s : R) : R := exp (- (s * s)).
Definition G (S : R) : R := RInt ga 0 S.
Lemma ga_cont s : continuous ga s.
Proof. unfold ga. apply (continuous_comp (fun s => - (s * s)) exp); [apply (continuous_opp (fun s => s * s)); apply (continuous_mult (fun s : R => s) (fun s => s)); apply continuous_id|apply continuous_exp]. Qed.
Lemma ga_pos s : 0 < ga s. Proof. apply exp_pos. Qed.
Lemma ga_int a b : ex_RInt ga a b. Proof. apply (ex_RInt_continuous (V := R_CompleteNormedModule)). intros; apply ga_cont. Qed.
Lemma ga_sym T : RInt ga (- T) T = 2 * G T.
Proof.
  unfold G. assert (E : RInt ga (- T) 0 = RInt ga 0 T).
  { rewrite <- (opp_RInt_swap ga 0 (- T)) by apply ga_int.
    assert (L := RInt_comp_lin ga (-1) 0 0 T). replace (-1 * 0 + 0) with 0 in L by ring. replace (-1 * T + 0) with (- T) in L by ring. rewrite <- L by apply ga_int. rewrite <- RInt_opp.
    - apply RInt_ext. intros x _. unfold scal, opp. simpl. unfold mult. simpl. unfold ga. replace (- ((-1 * x + 0) * (-1 * x + 0))) with (- (x * x)) by ring. ring.
    - apply (ex_RInt_continuous (V := R_CompleteNormedModule)). intros z _. apply (continuous_scal_r (-1) (fun y => ga (-1 * y + 0))). apply (continuous_comp (fun y => -1 * y + 0) ga); [|apply ga_cont].
      apply (continuous_plus (fun y => -1 * y) (fun _ => 0)); [|apply continuous_const]. apply (continuous_scal_r (-1) (fun y : R => y)). apply continuous_id. }
  rewrite <- (RInt_Chasles ga (- T) 0 T) by apply ga_int. rewrite E. unfold plus. simpl. ring.
Qed.
Lemma G_lim : is_lim G p_infty (sqrt PI / 2).
Proof.
  assert (L := gauss_integral 2 0 1 0 ltac:(lra)). replace (sqrt (2 * PI / 2) * 1 * exp (- / 2 * 0)) with (sqrt PI) in L by (replace (- / 2 * 0) with 0 by ring; rewrite exp_0; replace (2 * PI / 2) with PI by field; ring).
  apply (is_lim_ext (fun T => / 2 * RInt (fun t => 1 * exp (- / 2 * (0 + 2 * (t + 0) ^ 2))) (- T) T)).
  - intros T. replace (RInt (fun t => 1 * exp (- / 2 * (0 + 2 * (t + 0) ^ 2))) (- T) T) with (RInt ga (- T) T); [rewrite ga_sym; field|]. apply RInt_ext. intros x _. unfold ga. rewrite Rmult_1_l. f_equal. field.
  - replace (Finite (sqrt PI / 2)) with (Rbar_mult (/ 2) (sqrt PI)) by (simpl; f_equal; field). apply is_lim_scal_l. exact L.
Qed.
Lemma G_incr x y : x <= y -> G x <= G y.
Proof.
  intros H. unfold G. rewrite <- (RInt_Chasles ga 0 x y) by apply ga_int. unfold plus. simpl. assert (0 <= RInt ga x y); [|lra]. apply RInt_ge_0; [exact H|apply ga_int|]. intros; apply Rlt_le, ga_pos.
Qed.
Lemma G_pos S : 0 <= S -> 0 <= G S. Proof. intros H. assert (I := G_incr 0 S H). unfold G at 1 in I. rewrite RInt_point in I. exact I. Qed.
Lemma G_le S : G S <= sqrt PI / 2.
Proof.
  apply (is_lim_le_loc (fun _ => G S) G p_infty (G S) (sqrt PI / 2)); [exists S; intros x H; apply G_incr; lra|apply is_lim_const|apply G_lim].
Qed.

(** Integrals of complex functions of a real variable that depend on a parameter; used by VoigtAccProps.v. *)
From Coq Require Import Reals.
From Coquelicot Require Import Coquelicot.
From Coq Require Import List ZArith Lra Lia Psatz Bool.
From Verif Require Import SmaModel VoigtDisk VoigtCert VoigtAcc.
Import ListNotations.
Local Open Scope R_scope.

Ltac rring := match goal with |- @eq _ ?a ?b => change (@eq R a b); ring end.
Lemma two_c : RtoC 2 = (1 + 1)%C. Proof. apply c_eq; simpl; ring. Qed.
Lemma expm x y : x <= y -> exp x <= exp y. Proof. intros [H| ->]; [apply Rlt_le, exp_increasing, H|apply Rle_refl]. Qed.
(** * Continuity in two variables *)
Definition c2d (f : R -> R -> C) (x y : R) : Prop := continuity_2d_pt (fun x y => fst (f x y)) x y /\ continuity_2d_pt (fun x y => snd (f x y)) x y.
Lemma c2d_const c x y : c2d (fun _ _ => c) x y. Proof. split; apply continuity_2d_pt_const. Qed.
Lemma c2d_plus f g x y : c2d f x y -> c2d g x y -> c2d (fun x y => f x y + g x y)%C x y.
Proof. intros [F1 F2] [G1 G2]. split; cbn [fst snd Cplus]; apply continuity_2d_pt_plus; assumption. Qed.
Lemma c2d_opp f x y : c2d f x y -> c2d (fun x y => - f x y)%C x y.
Proof. intros [F1 F2]. split; cbn [fst snd Copp]; apply continuity_2d_pt_opp; assumption. Qed.
Lemma c2d_mult f g x y : c2d f x y -> c2d g x y -> c2d (fun x y => f x y * g x y)%C x y.
Proof.
  intros [F1 F2] [G1 G2]. split; cbn [fst snd Cmult].
  - apply continuity_2d_pt_minus; apply continuity_2d_pt_mult; assumption.
  - apply continuity_2d_pt_plus; apply continuity_2d_pt_mult; assumption.
Qed.
Lemma c2d_exp f x y : c2d f x y -> c2d (fun x y => cexp (f x y)) x y.
Proof.
  intros [F1 F2].
  assert (A : continuity_2d_pt (fun x y => exp (fst (f x y))) x y) by (apply (continuity_1d_2d_pt_comp exp (fun x y => fst (f x y))); [apply derivable_continuous_pt, derivable_pt_exp|exact F1]).
  split; cbn [fst snd cexp]; apply continuity_2d_pt_mult; try exact A.
  - apply (continuity_1d_2d_pt_comp cos (fun x y => snd (f x y))); [apply continuity_cos|exact F2].
  - apply (continuity_1d_2d_pt_comp sin (fun x y => snd (f x y))); [apply continuity_sin|exact F2].
Qed.
Lemma c2d_inv f x y : 0 < sq (f x y) -> c2d f x y -> c2d (fun x y => / f x y)%C x y.
Proof.
  intros P [F1 F2]. assert (N : continuity_2d_pt (fun x y => fst (f x y) ^ 2 + snd (f x y) ^ 2) x y).
  { apply continuity_2d_pt_plus; [apply (continuity_1d_2d_pt_comp (fun u => u ^ 2) (fun x y => fst (f x y)))|apply (continuity_1d_2d_pt_comp (fun u => u ^ 2) (fun x y => snd (f x y)))]; try assumption; apply derivable_continuous_pt, derivable_pt_pow. }
  assert (I : continuity_2d_pt (fun x y => / (fst (f x y) ^ 2 + snd (f x y) ^ 2)) x y) by (apply (continuity_2d_pt_inv _ _ _ N); unfold sq in P; simpl; lra).
  split; cbn [fst snd Cinv]; apply continuity_2d_pt_mult; try exact I; [exact F1|apply continuity_2d_pt_opp; exact F2].
Qed.
Lemma c2d_fst x y : c2d (fun x _ => RtoC x) x y. Proof. split; cbn [fst snd RtoC]; [apply continuity_2d_pt_id1|apply continuity_2d_pt_const]. Qed.
Lemma c2d_snd x y : c2d (fun _ y => RtoC y) x y. Proof. split; cbn [fst snd RtoC]; [apply continuity_2d_pt_id2|apply continuity_2d_pt_const]. Qed.

Definition ccont (f : R -> C) (y : R) : Prop := continuous (fun u => fst (f u)) y /\ continuous (fun u => snd (f u)) y.
Lemma cont_2d (f : R -> R -> R) x y : continuity_2d_pt f x y -> continuous (f x) y.
Proof.
  intros H. apply continuity_pt_filterlim. intros e Pe. destruct (H (mkposreal e Pe)) as [d Hd]. exists d. split; [apply (cond_pos d)|]. intros u [_ Hu]. simpl in Hu. unfold R_dist in Hu. simpl. unfold R_dist. apply Hd; [rewrite Rminus_eq_0, Rabs_R0; apply (cond_pos d)|exact Hu].
Qed.
Lemma c2d_cont f x y : c2d f x y -> ccont (f x) y.
Proof. intros [A B]. split; [apply (cont_2d (fun x y => fst (f x y)) x y A)|apply (cont_2d (fun x y => snd (f x y)) x y B)]. Qed.
Lemma cder_cont f s d : cder f s d -> ccont f s.
Proof. intros [A B]. split; [apply (ex_derive_continuous (K := R_AbsRing) (fun x => fst (f x))); eexists; exact A|apply (ex_derive_continuous (K := R_AbsRing) (fun x => snd (f x))); eexists; exact B]. Qed.

(** * The integral *)
Definition cint (f : R -> C) (a b : R) : C := (RInt (fun u => fst (f u)) a b, RInt (fun u => snd (f u)) a b).
Lemma rint (f : R -> R) a b : (forall u : R, continuous f u) -> ex_RInt f a b.
Proof. intros H. apply (ex_RInt_continuous (V := R_CompleteNormedModule)). intros; apply H. Qed.
Lemma cint_ext f g a b : (forall u, f u = g u) -> cint f a b = cint g a b.
Proof. intros H. unfold cint. f_equal; apply RInt_ext; intros u _; rewrite H; reflexivity. Qed.
Lemma cint_plus f g a b : (forall u, ccont f u) -> (forall u, ccont g u) -> cint (fun u => f u + g u)%C a b = (cint f a b + cint g a b)%C.
Proof.
  intros F H. apply c_eq; cbn [fst snd cint Cplus].
  - apply (RInt_plus (V := R_CompleteNormedModule) (fun u => fst (f u)) (fun u => fst (g u))); apply rint; intros u; [apply F|apply H].
  - apply (RInt_plus (V := R_CompleteNormedModule) (fun u => snd (f u)) (fun u => snd (g u))); apply rint; intros u; [apply F|apply H].
Qed.
Lemma rint_lin (p q : R) (f g : R -> R) a b : (forall u : R, continuous f u) -> (forall u : R, continuous g u) -> RInt (fun u => p * f u + q * g u) a b = p * RInt f a b + q * RInt g a b.
Proof.
  intros F H. rewrite (RInt_plus (V := R_CompleteNormedModule) (fun u => p * f u) (fun u => q * g u)).
  - unfold plus. simpl. f_equal; [apply (RInt_scal (V := R_CompleteNormedModule) f a b p)|apply (RInt_scal (V := R_CompleteNormedModule) g a b q)]; apply rint; auto.
  - apply rint. intros u. apply (continuous_scal_r p f). apply F.
  - apply rint. intros u. apply (continuous_scal_r q g). apply H.
Qed.
Lemma cint_scal c f a b : (forall u, ccont f u) -> cint (fun u => c * f u)%C a b = (c * cint f a b)%C.
Proof.
  intros F. apply c_eq; cbn [fst snd cint Cmult].
  - transitivity (RInt (fun u => fst c * fst (f u) + - snd c * snd (f u)) a b); [apply RInt_ext; intros; rring|]. rewrite (rint_lin _ _ (fun u => fst (f u)) (fun u => snd (f u))); [ring| |]; intros u; apply F.
  - transitivity (RInt (fun u => fst c * snd (f u) + snd c * fst (f u)) a b); [apply RInt_ext; intros; rring|]. rewrite (rint_lin _ _ (fun u => snd (f u)) (fun u => fst (f u))); [ring| |]; intros u; apply F.
Qed.
Lemma cint_ftc F f a b : (forall u, cder F u (f u)) -> (forall u, ccont f u) -> cint f a b = (F b - F a)%C.
Proof.
  intros D K. apply c_eq; cbn [fst snd cint Cminus Cplus Copp].
  - apply is_RInt_unique. apply (is_RInt_derive (fun u => fst (F u)) (fun u => fst (f u))); [intros u _; apply (proj1 (D u))|intros u _; apply K].
  - apply is_RInt_unique. apply (is_RInt_derive (fun u => snd (F u)) (fun u => snd (f u))); [intros u _; apply (proj2 (D u))|intros u _; apply K].
Qed.
Lemma rint_der (f f' : R -> R -> R) a b lb s : lb < s -> (forall s u, lb < s -> is_derive (fun s => f s u) s (f' s u)) -> (forall u, continuity_2d_pt f' s u) -> (forall s u, lb < s -> continuous (f s) u) ->
  is_derive (fun s => RInt (f s) a b) s (RInt (f' s) a b).
Proof.
  intros L D K F. assert (Lo : locally s (fun x => lb < x)).
  { exists (mkposreal (s - lb) ltac:(lra)). intros x Hx. unfold ball in Hx. simpl in Hx. unfold AbsRing_ball, abs, minus, plus, opp in Hx. simpl in Hx. apply Rabs_def2 in Hx. lra. }
  replace (RInt (f' s) a b) with (RInt (fun t => Derive (fun u => f u t) s) a b) by (apply RInt_ext; intros u _; apply is_derive_unique, D, L).
  apply is_derive_RInt_param.
  - apply (filter_imp (fun x => lb < x)); [|exact Lo]. intros x Hx u _. eexists. apply D, Hx.
  - intros u _. apply (continuity_2d_pt_ext_loc f'); [|apply K]. exists (mkposreal (s - lb) ltac:(lra)). intros x y Hx _. simpl in Hx. apply Rabs_def2 in Hx. symmetry. apply is_derive_unique, D. lra.
  - apply (filter_imp (fun x => lb < x)); [|exact Lo]. intros x Hx. apply rint. intros u. apply F, Hx.
Qed.
Lemma cint_der (f f' : R -> R -> C) a b lb s : lb < s -> (forall s u, lb < s -> cder (fun s => f s u) s (f' s u)) -> (forall u, c2d f' s u) -> (forall s u, lb < s -> ccont (f s) u) ->
  cder (fun s => cint (f s) a b) s (cint (f' s) a b).
Proof.
  intros L D K F. split; cbn [fst snd cint].
  - apply (rint_der (fun s u => fst (f s u)) (fun s u => fst (f' s u)) a b lb s L); [intros x u H; apply (proj1 (D x u H))|intros u; apply (proj1 (K u))|intros x u H; apply (proj1 (F x u H))].
  - apply (rint_der (fun s u => snd (f s u)) (fun s u => snd (f' s u)) a b lb s L); [intros x u H; apply (proj2 (D x u H))|intros u; apply (proj2 (K u))|intros x u H; apply (proj2 (F x u H))].
Qed.
Lemma cder_scal c f s d : cder f s d -> cder (fun x => c * f x)%C s (c * d)%C.
Proof. intros F. eapply cder_eq; [apply (cder_mult _ _ _ _ _ (cder_const c s) F)|ring]. Qed.
Lemma cder_id s : cder (fun x => RtoC x) s 1%C. Proof. split; cbn [fst snd RtoC]; [apply (is_derive_id (K := R_AbsRing) s)|apply rder_const]. Qed.
Lemma ccont_ext f g u : (forall x, f x = g x) -> ccont f u -> ccont g u.
Proof. intros E [A B]. split; [apply (continuous_ext (fun x => fst (f x))); [intros x; rewrite E; reflexivity|exact A]|apply (continuous_ext (fun x => snd (f x))); [intros x; rewrite E; reflexivity|exact B]]. Qed.

(** * The integral 2 / sqrt pi exp (- u u - 2 t u) over u between 0 and S *)
Definition kap : C := RtoC (2 / sqrt PI).
Definition phi (t : C) (u : R) : C := cexp (RtoC u * (- RtoC u - 2 * t))%C.
Definition W (S : R) (t : C) : C := (kap * cint (phi t) 0 S)%C.
Definition along (t d : C) (s : R) : C := (t + RtoC s * d)%C.
Lemma along_der t d s : cder (along t d) s d.
Proof. eapply cder_eq; [apply (cder_plus _ _ _ _ _ (cder_const t s) (cder_mult _ _ _ _ _ (cder_id s) (cder_const d s)))|ring]. Qed.
Lemma phi_der_t t d u s : cder (fun s => phi (along t d s) u) s (- (2) * RtoC u * d * phi (along t d s) u)%C.
Proof.
  unfold phi. eapply cder_eq; [apply cder_exp; apply (cder_scal (RtoC u)); apply cder_minus; [apply cder_const|apply (cder_scal 2%C); apply along_der]|]. cbn beta. ring.
Qed.
Lemma phi_der_u t u : cder (phi t) u ((- (2) * RtoC u - 2 * t) * phi t u)%C.
Proof.
  unfold phi. eapply cder_eq; [apply cder_exp; apply cder_mult; [apply cder_id|apply cder_minus; [apply cder_opp, cder_id|apply cder_const]]|]. cbn beta. rewrite !two_c. ring.
Qed.
Lemma phi_cont t u : ccont (phi t) u. Proof. eapply cder_cont. apply phi_der_u. Qed.
Lemma uphi_cont t u : ccont (fun u => - (2) * RtoC u * phi t u)%C u.
Proof. eapply cder_cont. apply cder_mult; [apply cder_scal, cder_id|apply phi_der_u]. Qed.
Lemma c2d_along t d s u : c2d (fun s _ => along t d s) s u.
Proof. unfold along. apply c2d_plus; [apply c2d_const|]. apply c2d_mult; [apply c2d_fst|apply c2d_const]. Qed.
Lemma c2d_phi t d s u : c2d (fun s u => phi (along t d s) u) s u.
Proof.
  unfold phi. apply c2d_exp, c2d_mult; [apply c2d_snd|]. unfold Cminus. apply c2d_plus; [apply c2d_opp, c2d_snd|]. apply c2d_opp, c2d_mult; [apply c2d_const|apply c2d_along].
Qed.
Lemma phi_parts t S : cint (fun u => - (2) * RtoC u * phi t u)%C 0 S = (phi t S - 1 + 2 * t * cint (phi t) 0 S)%C.
Proof.
  assert (E := cint_ftc (phi t) (fun u => (- (2) * RtoC u - 2 * t) * phi t u)%C 0 S (phi_der_u t)). rewrite (cint_ext _ (fun u => - (2) * RtoC u * phi t u + - (2 * t) * phi t u)%C) in E by (intros; ring).
  rewrite cint_plus in E; [|apply uphi_cont|intros u; eapply cder_cont; apply (cder_scal (- (2 * t))%C), phi_der_u]. rewrite (cint_scal (- (2 * t))%C (phi t)) in E by apply phi_cont.
  assert (P0 : phi t 0 = 1%C). { unfold phi. replace (RtoC 0 * (- RtoC 0 - 2 * t))%C with (RtoC 0) by ring. apply c_eq; cbn; rewrite exp_0, ?cos_0, ?sin_0; ring. }
  rewrite P0 in E. rewrite <- E; [ring|]. intros u. apply (ccont_ext (fun u => - (2) * RtoC u * phi t u + - (2 * t) * phi t u)%C); [intros; ring|]. eapply cder_cont. apply cder_plus; [apply cder_mult; [apply cder_scal, cder_id|apply phi_der_u]|apply cder_scal, phi_der_u].
Qed.
Lemma W_der S t d s : let p := along t d s in cder (fun s => W S (along t d s)) s (d * (2 * p * W S p - kap + kap * phi p S))%C.
Proof.
  intros p. unfold W. eapply cder_eq.
  - apply (cder_scal kap). apply (cint_der (fun s u => phi (along t d s) u) (fun s u => - (2) * RtoC u * d * phi (along t d s) u)%C 0 S (s - 1) s).
    + lra.
    + intros x u _. apply phi_der_t.
    + intros u. apply c2d_mult; [|apply c2d_phi]. apply c2d_mult; [|apply c2d_const]. apply c2d_mult; [apply c2d_const|apply c2d_snd].
    + intros x u _. apply phi_cont.
  - fold p. rewrite (cint_ext _ (fun u => d * (- (2) * RtoC u * phi p u))%C) by (intros; ring). rewrite (cint_scal d (fun u => - (2) * RtoC u * phi p u)%C) by apply uphi_cont. rewrite phi_parts. ring.
Qed.
Lemma phi_small p S : 0 <= fst p -> 0 <= S -> Cmod (phi p S) <= ga S.
Proof.
  intros P H. unfold phi. rewrite cmod_exp. unfold ga. cbn [fst snd Cmult Cminus Cplus Copp RtoC]. apply expm. assert (0 <= S * fst p) by (apply Rmult_le_pos; auto). lra.
Qed.

(** * The convolution of exp (- u u) with 1 / (pi (t + i u)) *)
Definition den (t : C) (u : R) : C := (t + (0, u))%C.
Definition psi (t : C) (u : R) : C := (RtoC (ga u) / den t u)%C.
Definition H (T : R) (t : C) : C := (RtoC (/ PI) * cint (psi t) (- T) T)%C.
Lemma den_pos t u : 0 < fst t -> 0 < sq (den t u).
Proof. intros P. unfold sq, den. cbn [fst snd Cplus]. assert (0 < (fst t + 0) * (fst t + 0)) by (apply Rmult_lt_0_compat; lra). assert (Q0 := Rle_0_sqr (snd t + u)). unfold Rsqr in Q0. lra. Qed.
Lemma den_der u t : cder (den t) u (0, 1).
Proof. unfold den. eapply cder_eq; [apply (cder_plus (fun _ => t) (fun u => (0, u)) u 0%C (0, 1)); [apply cder_const|]|apply c_eq; cbn; ring]. split; cbn [fst snd]; [apply rder_const|apply (is_derive_id (K := R_AbsRing) u)]. Qed.
Lemma ga_cder u : cder (fun u => RtoC (ga u)) u (- (2) * RtoC u * RtoC (ga u))%C.
Proof.
  split; cbn [fst snd RtoC Cmult Copp]; [|eapply rder_ext; [apply (rder_const 0)|reflexivity|ring]].
  unfold ga. assert (E : is_derive (fun u => - (u * u)) u (- (1 * u + u * 1))) by (apply (is_derive_opp (fun u => u * u)); apply rder_mult; apply (is_derive_id (K := R_AbsRing))).
  eapply rder_ext; [apply (is_derive_comp exp (fun u => - (u * u)) u _ _ (is_derive_exp _) E)|reflexivity|]. unfold scal. simpl. unfold mult. simpl. ring.
Qed.
Definition ci : C := (0, 1).
Lemma psi_der_u t u : 0 < fst t -> cder (psi t) u ((- (2) * RtoC u * RtoC (ga u) * den t u - RtoC (ga u) * ci) / (den t u * den t u))%C.
Proof. intros P. unfold psi. apply (cder_div (fun u => RtoC (ga u)) (den t) u (- (2) * RtoC u * RtoC (ga u))%C ci); [apply den_pos, P|apply ga_cder|apply den_der]. Qed.
Lemma psi_cont t u : 0 < fst t -> ccont (psi t) u. Proof. intros P. eapply cder_cont. apply psi_der_u, P. Qed.
Lemma along_fst t s : fst (along t 1 s) = fst t + s. Proof. unfold along. cbn. ring. Qed.
Lemma c2d_den t s u : c2d (fun s u => den (along t 1 s) u) s u.
Proof. unfold den. apply c2d_plus; [apply c2d_along|]. split; cbn [fst snd]; [apply continuity_2d_pt_const|apply continuity_2d_pt_id2]. Qed.
Lemma c2d_ga s u : c2d (fun _ u => RtoC (ga u)) s u.
Proof.
  split; cbn [fst snd RtoC]; [|apply continuity_2d_pt_const]. apply (continuity_1d_2d_pt_comp ga (fun _ u => u)); [apply continuity_pt_filterlim, ga_cont|apply continuity_2d_pt_id2].
Qed.
Lemma psi_der_t t u s : 0 < fst t + s -> cder (fun s => psi (along t 1 s) u) s (- (RtoC (ga u) / (den (along t 1 s) u * den (along t 1 s) u)))%C.
Proof.
  intros P. unfold psi. eapply cder_eq; [apply cder_div; [apply den_pos; rewrite along_fst; exact P|apply cder_const|unfold den; apply cder_plus; [apply along_der|apply cder_const]]|].
  cbn beta. fold (den (along t 1 s) u). assert (N : den (along t 1 s) u <> 0%C) by (intros Z; assert (Q0 := den_pos (along t 1 s) u); rewrite Z, along_fst in Q0; specialize (Q0 P); unfold sq in Q0; cbn in Q0; lra). field. exact N.
Qed.
Lemma cmod_i : Cmod ci = 1. Proof. unfold Cmod, ci. cbn [fst snd]. replace (0 ^ 2 + 1 ^ 2) with 1 by ring. apply sqrt_1. Qed.
Lemma ci2 : (ci * ci = - (1))%C. Proof. apply c_eq; cbn; ring. Qed.
Lemma den_nz t u : 0 < fst t -> den t u <> 0%C.
Proof. intros P Z. assert (Q0 := den_pos t u P). rewrite Z in Q0. unfold sq in Q0. cbn in Q0. lra. Qed.
Lemma psi_parts t T : 0 < fst t -> cint (fun u => - (RtoC (ga u) / (den t u * den t u)))%C (- T) T = (2 * t * cint (psi t) (- T) T - 2 * RtoC (RInt ga (- T) T) - ci * (psi t T - psi t (- T)))%C.
Proof.
  intros P. assert (K1 : forall u, ccont (psi t) u) by (intros; apply psi_cont, P). assert (K2 : forall u, ccont (fun u => RtoC (ga u)) u) by (intros u; eapply cder_cont; apply ga_cder).
  assert (K3 : forall u, ccont (fun u => - (RtoC (ga u) / (den t u * den t u)))%C u).
  { intros u. eapply cder_cont. apply cder_opp, cder_div; [|apply ga_cder|apply cder_mult; apply den_der]. assert (Q0 := den_pos t u P). rewrite sq_cmod in *. rewrite Cmod_mult. assert (0 < Cmod (den t u)) by (destruct (Req_dec (Cmod (den t u)) 0) as [Z|Z]; [rewrite Z in Q0; simpl in Q0; lra|assert (Z0 := Cmod_ge_0 (den t u)); lra]). apply pow_lt, Rmult_lt_0_compat; assumption. }
  assert (E := cint_ftc (psi t) (fun u => (- (2) * RtoC u * RtoC (ga u) * den t u - RtoC (ga u) * ci) / (den t u * den t u))%C (- T) T (fun u => psi_der_u t u P)).
  rewrite (cint_ext _ (fun u => ci * (2 * RtoC (ga u) + - (2 * t) * psi t u + - (RtoC (ga u) / (den t u * den t u))))%C) in E.
  2:{ intros u. unfold psi. assert (N := den_nz t u P). assert (Eu : RtoC u = (- ci * (den t u - t))%C) by (apply c_eq; unfold ci, den; cbn; ring). rewrite Eu. field. exact N. }
  assert (K4 : forall u, ccont (fun u => 2 * RtoC (ga u))%C u) by (intros u; eapply cder_cont; apply cder_scal, ga_cder).
  assert (K5 : forall u, ccont (fun u => - (2 * t) * psi t u)%C u) by (intros u; eapply cder_cont; apply cder_scal, psi_der_u, P).
  assert (CP : forall f g, (forall u, ccont f u) -> (forall u, ccont g u) -> forall u, ccont (fun u => f u + g u)%C u).
  { intros f g F H u. split; cbn [fst snd Cplus]; [apply (continuous_plus (fun u => fst (f u)) (fun u => fst (g u)))|apply (continuous_plus (fun u => snd (f u)) (fun u => snd (g u)))]; (apply F || apply H). }
  rewrite cint_scal in E by (apply CP; [apply CP|]; auto). rewrite cint_plus in E by (auto || (apply CP; auto)). rewrite cint_plus in E by auto. rewrite (cint_scal 2%C (fun u => RtoC (ga u))) in E by auto. rewrite (cint_scal (- (2 * t))%C (psi t)) in E by auto.
  assert (EG : cint (fun u => RtoC (ga u)) (- T) T = RtoC (RInt ga (- T) T)). { apply c_eq; cbn [fst snd cint RtoC]; [reflexivity|]. rewrite RInt_const. unfold scal. simpl. unfold mult. simpl. ring. }
  rewrite EG in E. set (X := cint (fun u => - (RtoC (ga u) / (den t u * den t u)))%C (- T) T) in *. rewrite <- E; [replace (ci * (ci * (2 * RtoC (RInt ga (- T) T) + - (2 * t) * cint (psi t) (- T) T + X)))%C with (ci * ci * (2 * RtoC (RInt ga (- T) T) + - (2 * t) * cint (psi t) (- T) T + X))%C by ring; rewrite ci2; ring|].
  intros u. apply (ccont_ext (fun u => ci * (2 * RtoC (ga u) + - (2 * t) * psi t u + - (RtoC (ga u) / (den t u * den t u))))%C).
  - intros x. unfold psi. assert (N := den_nz t x P). assert (Eu : RtoC x = (- ci * (den t x - t))%C) by (apply c_eq; unfold ci, den; cbn; ring). rewrite Eu. field. exact N.
  - set (F := (fun u => 2 * RtoC (ga u) + - (2 * t) * psi t u + - (RtoC (ga u) / (den t u * den t u)))%C). assert (KF : forall u, ccont F u) by (apply CP; [apply CP|]; auto). destruct (KF u) as [A B]. change (ccont (fun u => ci * F u)%C u). clearbody F. split; cbn [fst snd Cmult ci].
    + apply (continuous_ext (fun x => - snd (F x))); [intros; rring|]. apply (continuous_opp (fun x => snd (F x))). exact B.
    + apply (continuous_ext (fun x => fst (F x))); [intros; rring|]. exact A.
Qed.
Lemma H_der T t s : 0 < fst t -> 0 <= s -> let p := along t 1 s in
  cder (fun s => H T (along t 1 s)) s (2 * p * H T p - RtoC (/ PI) * (2 * RtoC (RInt ga (- T) T) + ci * (psi p T - psi p (- T))))%C.
Proof.
  intros P Ps p. unfold H. eapply cder_eq.
  - apply (cder_scal (RtoC (/ PI))). apply (cint_der (fun s u => psi (along t 1 s) u) (fun s u => - (RtoC (ga u) / (den (along t 1 s) u * den (along t 1 s) u)))%C (- T) T (- fst t) s).
    + lra.
    + intros x u Hx. apply psi_der_t. lra.
    + intros u. assert (N : 0 < sq (den (along t 1 s) u * den (along t 1 s) u)%C).
      { assert (Q0 := den_pos (along t 1 s) u ltac:(rewrite along_fst; lra)). rewrite sq_cmod in *. rewrite Cmod_mult. set (z := Cmod (den (along t 1 s) u)) in *. assert (Z0 : 0 <= z) by apply Cmod_ge_0. assert (0 < z) by (destruct (Req_dec z 0) as [Z|Z]; [rewrite Z in Q0; simpl in Q0; lra|lra]). apply pow_lt, Rmult_lt_0_compat; assumption. }
      apply c2d_opp. unfold Cdiv. apply c2d_mult; [apply c2d_ga|]. apply (c2d_inv (fun s u => den (along t 1 s) u * den (along t 1 s) u)%C); [exact N|]. apply c2d_mult; apply c2d_den.
    + intros x u Hx. apply psi_cont. rewrite along_fst. lra.
  - fold p. rewrite psi_parts by (unfold p; rewrite along_fst; lra). ring.
Qed.

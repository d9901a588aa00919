(** C61 for a focusing analyzer; C42: the uncoupled vertical direction. *)
From Coq Require Import String List ZArith Reals Lra Lia Psatz Bool.
From Verif Require Import Base MatInv TasModel TasProof TasMirror TasWide TasVar TasCase TasProps TasRaysProps.
Import ListNotations.
Local Open Scope R_scope.

(** * Horizontally focusing analyzer *)
(** Cooper and Nathans with a horizontally focusing analyzer: the deviations of kf along and across are no longer those of rays but
    independent, with spreads kf eta / tan(theta) and kf alpha; for the setting 1 the divergence is taken to be that of a
    uniform distribution, with its full width at half maximum. *)
Theorem C61_focusing t q w J : usable t 1 -> reachable t (q, w) -> popovici t = false -> (0 < horifoc t)%Z ->
  let ki := kin t w in let kf := kfin t w in let thm := theta (t_mono t) ki in let tha := theta (t_ana t) kf in
  let alpha2 := divergence ki (t_hcol t 2%nat) * (if Z.eqb (horifoc t) 1 then sqrt (8 * ln 2 / 12) else 1) in
  let ray x dk := fun i => if Nat.eqb i 3 then fst dk else if Nat.eqb i 4 then snd dk else deviation ki kf thm tha x i in
  let weight x dk := collimation ki t (fun i => if (Nat.eqb i 4 || Nat.eqb i 5)%bool then 0 else x i) +
    spread (x_mosaic (t_mono t)) (if is_str (meth t) "Popovici" then opt (x_mosaic (t_mono t)) (x_vmosaic (t_mono t)) else x_mosaic (t_mono t))
      (x_mosaic (t_ana t)) (opt (x_mosaic (t_ana t)) (x_vmosaic (t_ana t)))
      (bent_h x 0) (bent_v thm x 2) 0 (bent_v tha x 6) +
    (fst dk * tan tha / (kf * (x_mosaic (t_ana t) * minute))) ^ 2 + (snd dk / (kf * alpha2)) ^ 2 in
  jacobian ki kf (twotheta t q w) J ->
  exists r M C, calc_in_Q t [(q, w)] = Ok [Some (r, M)] /\ inverse 4 C M /\ forall y,
    (forall x dk, 2 * dotv 4 y (mulv 6 J (ray x dk)) - weight x dk + sample_spread t q y <= qf 4 C y) /\
    exists x dk, 2 * dotv 4 y (mulv 6 J (ray x dk)) - weight x dk + sample_spread t q y = qf 4 C y.
Proof.
  intros U R P HF ki kf thm tha alpha2 ray weight HJ. subst thm tha.
  destruct (lengths_ok t 1 U) as [[[[[L0 L1] L2] L3] Lm] [EL (N0 & N1 & N2 & N3 & Nm)]].
  destruct (single t q w L0 L1 L2 L3 Lm U R EL) as (sh & Es & Ps & Ec). set (v := next t (start t) w) in *. set (g := geom_of t q w) in *.
  assert (V : vars_ok v) by (apply (next_ok t (start t) w 1 U (proj1 R)); now apply start_ok with 1%nat). assert (G : good_geom g) by (now apply geom_ok with 1%nat).
  assert (K : x_tau (t_ana t) / 2 < g_kf g) by (destruct R as (_ & _ & _ & Ka & _); unfold g, geom_of; simpl; lra).
  assert (PH := posdef_Hc t v g 1 U V). destruct (minv_posdef 8 _ PH) as [I [EI [II PI]]]. assert (DN := dec_N g t v I II).
  assert (PN := posdef_congr 6 8 _ _ PI (rank_A g G)). set (N := mul 8 (Am g) (mul 8 I (tr (Am g)))) in *.
  destruct (minv_posdef 6 _ PN) as [N' [EN1 [IN' PN']]]. assert (DN' : eqm 6 6 (conj_by s6a s6a N') N') by (apply conj_inverse with N; auto; apply signs_sg).
  assert (PF := focused_posdef t v g 1 N' U V G PN' DN'). destruct (minv_posdef 6 _ PF) as [N2' [EN2 [IN2 PN2]]].
  assert (EN : Ninv t v (L0, L1, L2, L3) g sh = Some (N2', H_cooper t v g)).
  { unfold Ninv. rewrite P, EI. cbn [ob]. fold N. destruct (Z.ltb_spec 0 (horifoc t)); [|lia]. rewrite EN1. cbn [ob]. rewrite EN2. reflexivity. }
  destruct (at_spec t v L0 L1 L2 L3 Lm g sh 1 _ _ U V G Ps N0 N1 N2 N3 Nm K EN) as (r & M & ER & PC & IC).
  eexists r, M, _. split; [rewrite Ec, ER; reflexivity|]. split; [exact IC|]. intros y. change (g_q g) with q. rewrite qf_add, (ps_mos t q). unfold Minv. rewrite qf_congr.
  set (u := mulv 4 (tr (Bm g)) y). destruct (var_max 6 _ _ u PF IN2) as [X1 X2].
  destruct (constrained 6 8 (H_cooper t v g) I (Am g) N N' PH II PI eq_refl PN IN') as [Y1 Y2].
  assert (Dot : forall d, dotv 6 u d = dotv 4 y (mulv 6 J d)). { intros d. unfold u. rewrite <- dotv_tr. apply dotv_ext; auto. intros i L. apply mulv_ext with 4%nat; auto. now apply (ps_J t q w U R). }
  assert (Kf := gg_kf g G). destruct (mono_eta t 1 U) as (_ & _ & Ea & _).
  assert (A2 : v_alpha v 2%nat = alpha2).
  { unfold v, next, alpha2. cbn [v_alpha]. fold ki. change (divergence ki (t_hcol t 2%nat)) with ((fun i => divergence ki (t_hcol t i)) 2%nat). rewrite <- div_eq. unfold start, guided. cbn [v_alpha]. change (Nat.eqb 2 2) with true. rewrite andb_true_r.
    destruct (Z.eqb (horifoc t) 1); [|ring]. assert (S0 : 0 < sqrt (8 * ln 2 / 12)) by (apply sqrt_lt_R0; assert (0 < ln 2) by (rewrite <- ln_1; apply ln_increasing; lra); lra). set (s := sqrt (8 * ln 2 / 12)) in *. set (h := t_hcol t 2%nat * CONVERT1).
    destruct (Rlt_dec (h * s) 0), (Rlt_dec h 0); try (exfalso; nra); unfold Rdiv; ring. }
  assert (Va2 : alpha2 <> 0) by (rewrite <- A2; apply V; lia).
  (* the weight of a ray whose horizontal analyzer angles vanish *)
  assert (W : forall x dk, x 4%nat = 0 -> x 5%nat = 0 -> qf 8 (H_cooper t v g) x + (tan (g_ta g) / (etaa t * g_kf g)) ^ 2 * fst dk ^ 2 + (1 / (g_kf g * v_alpha v 2%nat)) ^ 2 * snd dk ^ 2 = weight x dk).
  { intros x dk Z4 Z5. unfold H_cooper, weight. rewrite qf_add. change (mul 4 (tr (Cm g)) (mul 4 (Fm t) (Cm g))) with (mul 4 (tr (Cm g)) (mul 4 (Fm t) (tr (tr (Cm g))))). rewrite qf_congr.
    rewrite (ps_F t U). change (tr (tr (Cm g))) with (Cm g). unfold g at 1 2 3 4. rewrite !(ps_C t q w U R) by lia. cbn [nth]. assert (P' := P). unfold popovici in P'. apply orb_false_iff in P'. destruct P' as [P1 P2]. rewrite P1. cbn [orb].
    assert (B4 : bent_h x 4 = 0) by (unfold bent_h; rewrite Z4, Z5; field). rewrite B4.
    assert (EG : qf 8 (Gm v) x = collimation ki t (fun i => if (Nat.eqb i 4 || Nat.eqb i 5)%bool then 0 else x i)).
    { unfold Gm. rewrite qf_diag. unfold collimation. cbn [map sum nth Nat.eqb orb]. rewrite Z4, Z5.
      assert (Al : forall i, (i < 2 \/ i = 3)%nat -> v_alpha v i = divergence ki (t_hcol t i)).
      { intros i Li. unfold v, next. cbn [v_alpha]. fold ki. change (divergence ki (t_hcol t i)) with ((fun i => divergence ki (t_hcol t i)) i). rewrite <- div_eq. unfold start, guided. cbn [v_alpha]. destruct (Nat.eqb_spec i 2); [lia|]. rewrite andb_false_r. reflexivity. }
      assert (Be : v_beta v = fun i => divergence ki (t_vcol t i)) by (apply ps_beta). destruct V as [V0 _].
      destruct (V0 0%nat ltac:(lia)), (V0 1%nat ltac:(lia)), (V0 2%nat ltac:(lia)), (V0 3%nat ltac:(lia)). rewrite Be in *. rewrite (Al 0%nat), (Al 1%nat), (Al 3%nat) in * by lia.
      assert (D2 : divergence ki (t_hcol t 2%nat) <> 0). { intros Zd. apply Va2. unfold alpha2. rewrite Zd. ring. }
      cbv beta in *. field. repeat split; auto. }
    rewrite EG. rewrite A2. change (g_kf g) with kf in *. change (g_ta g) with (theta (t_ana t) kf). unfold spread. rewrite minute_eq. fold (etaa t).
    replace ((tan (theta (t_ana t) kf) / (etaa t * kf)) ^ 2 * fst dk ^ 2) with ((fst dk * tan (theta (t_ana t) kf) / (kf * etaa t)) ^ 2) by (field; split; auto; lra). replace ((1 / (kf * alpha2)) ^ 2 * snd dk ^ 2) with ((snd dk / (kf * alpha2)) ^ 2) by (field; split; auto; lra).
    reflexivity. }
  assert (Zero : forall d x, (forall i, (i < 6)%nat -> mulv 8 (Am g) x i = (if (Nat.leb 3 i && Nat.ltb i 5)%bool then 0 else d i)) -> x 4%nat = 0 /\ x 5%nat = 0).
  { intros d x Hx. assert (H3 := Hx 3%nat ltac:(lia)). assert (H4 := Hx 4%nat ltac:(lia)). cbn [Nat.leb Nat.ltb andb] in H3, H4. unfold g in H3, H4. rewrite (ps_dev t q w U R) in H3, H4 by lia. unfold deviation in H3, H4. cbn [nth] in H3, H4. change (kfin t w) with kf in H3, H4. change (g_kf g) with kf in Kf.
    assert (E4 : x 4%nat = 0) by (apply (Rmult_eq_reg_l kf); lra). split; auto. rewrite E4 in H3.
    destruct (tan_sin_pos _ (gg_ca g G) (gg_sa g G)) as [Ta _]. change (g_ta g) with (theta (t_ana t) kf) in Ta. apply (Rmult_eq_reg_l (- kf / (2 * tan (theta (t_ana t) kf)))); [|apply Rmult_integral_contrapositive_currified; [lra|apply Rinv_neq_0_compat; lra]]. rewrite Rmult_0_r, <- H3. field. auto. }
  split.
  - intros x dk. set (x' := fun i => if (Nat.eqb i 4 || Nat.eqb i 5)%bool then 0 else x i).
    assert (Wx : weight x dk = weight x' dk) by (unfold weight, bent_h, bent_v, x', collimation; cbn [Nat.eqb orb]; reflexivity).
    assert (Rx : forall i, (i < 6)%nat -> ray x dk i = ray x' dk i) by (intros i L; unfold ray, deviation, x'; do 6 (destruct i as [|i]; [reflexivity|]); lia).
    rewrite Wx, <- (W x' dk eq_refl eq_refl). rewrite <- Dot. specialize (X1 (ray x dk)). rewrite (focused_qf g t v N' DN') in X1.
    assert (Yx := Y1 x'). assert (Eq : qf 6 N' (mulv 8 (Am g) x') = qf 6 N' (fun i => if (Nat.leb 3 i && Nat.ltb i 5)%bool then 0 else ray x dk i)).
    { apply qf_shift. intros i L. unfold g. rewrite (ps_dev t q w U R) by auto. fold ki kf. do 6 (destruct i as [|i]; [unfold deviation, ray, x'; cbn [nth Nat.leb Nat.ltb andb Nat.eqb orb]; try reflexivity; unfold Rdiv; ring|]). lia. }
    rewrite Eq in Yx. change (ray x dk 3%nat) with (fst dk) in X1. change (ray x dk 4%nat) with (snd dk) in X1. lra.
  - set (d := mulv 6 N2' u) in *. destruct (Y2 (fun i => if (Nat.leb 3 i && Nat.ltb i 5)%bool then 0 else d i)) as [x [Ex Eq]]. destruct (Zero d x Ex) as [Z4 Z5].
    exists x, (d 3%nat, d 4%nat). rewrite <- (W x (d 3%nat, d 4%nat) Z4 Z5), <- Dot. rewrite (focused_qf g t v N' DN') in X2. cbn [fst snd]. rewrite Eq.
    assert (Ed : dotv 6 u (ray x (d 3%nat, d 4%nat)) = dotv 6 u d).
    { apply dotv_ext; auto. intros i L. unfold ray. destruct (Nat.eqb_spec i 3) as [->|]; [reflexivity|]. destruct (Nat.eqb_spec i 4) as [->|]; [reflexivity|]. assert (Ei := Ex i L). destruct (Nat.leb_spec 3 i), (Nat.ltb_spec i 5); try lia; cbn [andb] in Ei; rewrite <- Ei; symmetry; now apply (ps_dev t q w U R). }
    rewrite Ed. lra.
Qed.
Print Assumptions C61_focusing.
Example C61_focusing_ex : forall h, h = 1%Z \/ h = 2%Z -> let t := case 1 None (Some h) (Some 10) None in exists q w J,
  usable t 1 /\ reachable t (q, w) /\ popovici t = false /\ (0 < horifoc t)%Z /\ jacobian (kin t w) (kfin t w) (twotheta t q w) J.
Proof.
  intros h Hh t. assert (U : usable t 1) by (apply case_usable; auto; lra). assert (F := case_points_ok 1 None (Some h) (Some 10) None). inversion F as [|? ? R F']; subst.
  eexists _, _, (Bm (geom_of t _ _)). split; [exact U|]. split; [exact R|]. split; [reflexivity|]. split; [cbn; lia|]. apply (jac_B (geom_of t _ _)). now apply geom_ok with 1%nat.
Qed.

(** * The vertical direction *)
Definition flat (m : mat) : Prop := m 0%nat 2%nat = 0 /\ m 1%nat 2%nat = 0 /\ m 2%nat 0%nat = 0 /\ m 2%nat 1%nat = 0.
(** With the Popovici method a given shape of the sample must not couple the height to the other two directions. *)
Definition level (t : tas) : Prop := popovici t = true ->
  match s_shape t with None => True | Some (S2 m) => flat m | Some (S3 l) => Forall flat l end.
Definition z3 := sg [false; false; true].
Definition z4 := sg [false; false; true; false].
Definition zF := sg [false; true; false; true].
Definition z6 := sg [false; false; true; false; false; true].
Definition z8 := sg [false; false; true; true; false; false; true; true].
Definition z13 := sg [false; true; false; false; true; false; false; true; false; false; true; false; true].
Lemma zA g : rel 6 8 z6 z8 (Am g) (Am g). Proof. unfold Am, z6, z8. cbv zeta. ent. Qed.
Lemma zC g : rel 4 8 zF z8 (Cm g) (Cm g). Proof. unfold Cm, zF, z8. ent. Qed.
Lemma zB g : rel 4 6 z4 z6 (Bm g) (Bm g). Proof. unfold Bm, z4, z6. cbv zeta. ent. Qed.
Lemma zT L0 L1 L2 L3 v g : rel 4 13 zF z13 (Tm L0 L1 L2 L3 v g) (Tm L0 L1 L2 L3 v g).
Proof. unfold Tm, zF, z13. cbv zeta. ent. Qed.
Lemma zD L0 L1 L2 L3 g : rel 8 13 z8 z13 (Dm L0 L1 L2 L3 g) (Dm L0 L1 L2 L3 g).
Proof. unfold Dm, z8, z13. cbv zeta. ent. Qed.
Lemma zrot g sh : flat sh -> rel 3 3 z3 z3 (rotated g sh) (rotated g sh).
Proof.
  intros (F1 & F2 & F3 & F4). unfold rotated. cbv zeta.
  assert (R : rel 3 3 z3 z3 (mx [[cos (g_2t g / 2 - g_phi g); sin (g_2t g / 2 - g_phi g); 0]; [- sin (g_2t g / 2 - g_phi g); cos (g_2t g / 2 - g_phi g); 0]; [0; 0; 1]]) (mx [[cos (g_2t g / 2 - g_phi g); sin (g_2t g / 2 - g_phi g); 0]; [- sin (g_2t g / 2 - g_phi g); cos (g_2t g / 2 - g_phi g); 0]; [0; 0; 1]])) by (unfold z3; ent).
  apply rel_mul with z3; [apply signs_sg|apply rel_mul with z3; [apply signs_sg|exact R|]|apply rel_tr; exact R].
  unfold z3. ent; try rewrite F1; try rewrite F2; try rewrite F3; try rewrite F4; ring.
Qed.
Lemma zS t g sh : flat sh -> rel 13 13 z13 z13 (Sinv t g sh) (Sinv t g sh).
Proof.
  intros H. unfold Sinv. assert (Sg : signs z13) by apply signs_sg.
  apply (rel_blk 2 11); [unfold bshape; destruct (t_guide t); now apply rel_diag|]. apply (rel_blk 3 8); [apply rel_diag; now apply (signs_tl 2)|]. apply (rel_blk 3 5).
  - assert (X := zrot g sh H). intros i j Li Lj. transitivity (conj_by z3 z3 (rotated g sh) i j); [now apply X|]. unfold conj_by. do 3 (destruct i as [|i]; [do 3 (destruct j as [|j]; [reflexivity|]); lia|]). lia.
  - apply (rel_blk 3 2); [apply rel_diag|unfold dshape; destruct (t_detector t); apply rel_diag]; intros i; apply Sg.
Qed.
Lemma orel2_refl {A} (P : A -> A -> Prop) o x : orel2 P o o -> o = Some x -> P x x.
Proof. intros H E. rewrite E in H. exact H. Qed.
Lemma zN t v Ls g sh N HG : (popovici t = true -> flat sh) -> Ninv t v Ls g sh = Some (N, HG) -> rel 6 6 z6 z6 N N.
Proof.
  intros F E. apply (orel2_refl (fun x y : mat * mat => rel 6 6 z6 z6 (fst x) (fst y)) _ (N, HG)) in E; [exact E|]. destruct Ls as [[[L0 L1] L2] L3]. unfold Ninv. destruct (popovici t) eqn:P.
  - apply (ob_rel (rel 8 8 z8 z8)).
    + unfold HG_popovici. cbv zeta. apply (ob_rel (rel 13 13 z13 z13)); [apply rel_minv; [apply signs_sg|apply zS; auto]|]. intros S S' HS.
      apply (ob_rel (rel 13 13 z13 z13)); [apply rel_minv; [apply signs_sg|apply rel_add; auto; apply sandwich_tr with zF; [apply signs_sg|apply zT|apply rel_F4, signs_sg]]|]. intros K K' HK.
      apply (ob_rel (rel 8 8 z8 z8)); [apply rel_minv; [apply signs_sg|apply rel_sandwich with z13; [apply signs_sg|apply zD|auto]]|]. intros X X' HX. simpl. apply rel_add; auto. apply rel_Gm, signs_sg.
    + intros X X' HX. apply (ob_rel (rel 8 8 z8 z8)); [apply rel_minv; [apply signs_sg|auto]|]. intros I I' HI. simpl. apply rel_sandwich with z8; [apply signs_sg|apply zA|auto].
  - assert (HH : rel 8 8 z8 z8 (H_cooper t v g) (H_cooper t v g)) by (unfold H_cooper; apply rel_add; [apply rel_Gm, signs_sg|apply sandwich_tr with zF; [apply signs_sg|apply zC|apply rel_F4, signs_sg]]).
    apply (ob_rel (rel 8 8 z8 z8)); [apply rel_minv; [apply signs_sg|auto]|]. intros I I' HI. cbv zeta.
    assert (HN : rel 6 6 z6 z6 (mul 8 (Am g) (mul 8 I (tr (Am g)))) (mul 8 (Am g) (mul 8 I' (tr (Am g))))) by (apply rel_sandwich with z8; [apply signs_sg|apply zA|auto]).
    destruct (0 <? horifoc t)%Z; [|simpl; auto]. apply (ob_rel (rel 6 6 z6 z6)); [apply rel_minv; [apply signs_sg|auto]|]. intros N1 N1' HN'.
    apply (ob_rel (rel 6 6 z6 z6)); [apply rel_minv; [apply signs_sg|]|intros N2 N2' H2; exact H2].
    intros i j Li Lj. unfold focused, conj_by. destruct (Nat.leb 3 i && Nat.ltb i 5 && Nat.leb 3 j && Nat.ltb j 5)%bool eqn:B; [|now apply HN'].
    rewrite !andb_true_iff, !Nat.leb_le, !Nat.ltb_lt in B. destruct B as (((B1 & B2) & B3) & B4).
    assert (Ci : i = 3%nat \/ i = 4%nat) by lia. assert (Cj : j = 3%nat \/ j = 4%nat) by lia. destruct Ci as [-> | ->], Cj as [-> | ->]; unfold mx, z6, sg; cbn [nth Nat.sub]; ring.
Qed.
Lemma level_flat t i sh : level t -> popovici t = true -> sshapes t i = Some sh -> flat sh.
Proof.
  intros H P E. specialize (H P). unfold sshapes in E.
  assert (D : forall m f, flat m -> flat (fun i j => m i j / f)) by (intros m f (F1 & F2 & F3 & F4); repeat split; [rewrite F1|rewrite F2|rewrite F3|rewrite F4]; unfold Rdiv; ring).
  assert (K : (match s_shape t with None => Some idm | Some (S2 m) => Some (fun i j => m i j / factor t)
    | Some (S3 l) => match nth_error l i with Some m => Some (fun i j => m i j / factor t) | None => None end end = Some sh) -> flat sh).
  { destruct (s_shape t) as [[m|l]|].
    - intros X. injection X as <-. now apply D.
    - destruct (nth_error l i) as [m|] eqn:En; [|discriminate]. intros X. injection X as <-. apply D. rewrite Forall_forall in H. apply H. now apply nth_error_In in En.
    - intros X. injection X as <-. repeat split; reflexivity. }
  destruct (s_width t); [|now apply K]. destruct (s_depth t); [|now apply K]. destruct (s_height t); [|now apply K]. injection E as <-. repeat split; reflexivity.
Qed.
Lemma zM t v Ls g sh N HG C : (popovici t = true -> flat sh) -> Ninv t v Ls g sh = Some (N, HG) -> inverse 4 (addm (Minv g N) (mosaic_term t (g_q g))) C ->
  rel 4 4 z4 z4 (addm (Minv g N) (mosaic_term t (g_q g))) (addm (Minv g N) (mosaic_term t (g_q g))) /\ rel 4 4 z4 z4 C C.
Proof.
  intros F E I. assert (H : rel 4 4 z4 z4 (addm (Minv g N) (mosaic_term t (g_q g))) (addm (Minv g N) (mosaic_term t (g_q g)))).
  { apply rel_add; [apply rel_sandwich with z6; [apply signs_sg|apply zB|now apply (zN t v Ls g sh N HG)]|]. unfold mosaic_term. destruct (s_mosaic t); apply rel_diag, signs_sg. }
  split; auto. apply eqm_sym. apply conj_inverse with (addm (Minv g N) (mosaic_term t (g_q g))); auto; [apply signs_sg|]. now apply eqm_sym.
Qed.
(** The vertical direction is independent of the scattering plane and of the energy. *)
Theorem C42_vertical t points : usable t (List.length points) -> Forall (reachable t) points -> level t ->
  exists rs, calc_in_Q t points = Ok rs /\ Forall2 (fun _ o => exists r M, o = Some (r, M) /\
    forall i, (i < 4)%nat -> i <> 2%nat -> M i 2%nat = 0 /\ M 2%nat i = 0) points rs.
Proof.
  intros U F Lv. destruct (lengths_ok t _ U) as [[[[[L0 L1] L2] L3] Lm] [EL NZ]]. unfold calc_in_Q. rewrite EL. simpl bind.
  assert (G : forall l v ind, vars_ok v -> v_ok v = true -> (ind + List.length l <= List.length points)%nat -> Forall (reachable t) l ->
    exists rs, loop t (L0, L1, L2, L3, Lm) v ind l = Ok rs /\ Forall2 (fun _ o => exists r M, o = Some (r, M) /\ forall i, (i < 4)%nat -> i <> 2%nat -> M i 2%nat = 0 /\ M 2%nat i = 0) l rs).
  { induction l as [|[q w] l IH]; intros v ind V O Le Fl; simpl; [eexists; split; [reflexivity|constructor]|].
    inversion Fl as [|? ? R F']; subst. simpl in Le. assert (Sok : sample_ok t (List.length points)) by apply U. destruct (sshapes_ok t _ ind Sok ltac:(lia)) as [sh [Es Ps]].
    rewrite (point_reach t _ v ind q w _ sh U Es V O NZ R). simpl bind. assert (Vn := next_ok t v w _ U (proj1 R) V).
    destruct (IH (next t v w) (S ind) Vn O ltac:(lia) F') as [rs [-> Frs]]. eexists. split; [reflexivity|]. constructor; auto.
    assert (Gg : good_geom (geom_of t q w)) by (now apply geom_ok with (List.length points)). destruct NZ as (N0 & N1 & N2 & N3 & Nm). assert (K : x_tau (t_ana t) / 2 < g_kf (geom_of t q w)) by (destruct R as (_ & _ & _ & Ka & _); unfold geom_of; simpl; lra).
    destruct (Ninv_ok t (next t v w) L0 L1 L2 L3 (geom_of t q w) sh _ U Vn Gg Ps N0 N1 N2 N3) as (N & HG & EN & _).
    destruct (at_spec t (next t v w) L0 L1 L2 L3 Lm _ sh _ N HG U Vn Gg Ps N0 N1 N2 N3 Nm K EN) as (r & M & ER & _ & IM).
    exists r, M. split; [exact ER|]. destruct (zM t _ _ _ sh N HG M (fun P => level_flat t ind sh Lv P Es) EN IM) as [_ Z].
    intros i Li Ni. assert (A := Z i 2%nat Li ltac:(lia)). assert (B := Z 2%nat i ltac:(lia) Li). unfold conj_by, z4, sg in A, B. do 4 (destruct i as [|i]; [try lia; cbn [nth] in A, B; lra|]). lia. }
  apply G; auto. now apply start_ok with (List.length points).
Qed.
Print Assumptions C42_vertical.
Example C42_vertical_ex : level (case 1 (Some (MNum 1)) None (Some 10) (Some case_shape)) /\ usable (case 1 (Some (MNum 1)) None (Some 10) (Some case_shape)) (List.length case_points).
Proof. split; [intros _; repeat split; reflexivity|apply case_usable; auto; lra]. Qed.

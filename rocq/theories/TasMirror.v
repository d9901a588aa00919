(** A mirrored spectrometer: what each step of calc_in_Q does when the senses of scattering are reversed. *)
From Coq Require Import String List ZArith Reals Lra Lia Psatz Bool.
From Verif Require Import Base MatInv TasModel TasProof.
From Verif Require MatModel.
Import ListNotations.
Local Open Scope R_scope.

Definition plane : vec := sg [false; true; false].
Definition mirror_x (x : crystal) : crystal :=
  mkX (x_tau x) (x_mosaic x) (x_vmosaic x) (- x_dir x) (x_width x) (x_height x) (x_depth x) (x_rv x) (x_rh x).
Definition mirror_m (m : mat) : mat := conj_by plane plane m.
Definition mirror_shape (s : shape) : shape := match s with S2 m => S2 (mirror_m m) | S3 l => S3 (map mirror_m l) end.
Definition mirror (t : tas) : tas :=
  mkTas (t_method t) (t_moncor t) (t_hcol t) (t_vcol t) (mirror_x (t_mono t)) (mirror_x (t_ana t)) (t_thickness t) (t_Q t) (t_infin t) (t_efixed t)
    (t_arms t) (t_horifoc t) (t_guide t) (t_monitor t) (t_detector t) (- s_dir t) (s_mosaic t) (s_vmosaic t) (s_type t) (s_width t) (s_height t) (s_depth t)
    (match s_shape t with Some s => Some (mirror_shape s) | None => None end).

Definition orel2 {A B} (R : A -> B -> Prop) (x : option A) (y : option B) : Prop :=
  match x, y with Some a, Some b => R a b | None, None => True | _, _ => False end.
Lemma ob_rel {A B C D} (R : A -> B -> Prop) (S : C -> D -> Prop) x y f g :
  orel2 R x y -> (forall a b, R a b -> orel2 S (f a) (g b)) -> orel2 S (ob x f) (ob y g).
Proof. destruct x, y; simpl; intros H K; auto; contradiction. Qed.
Lemma ob_eq {A C D} (S : C -> D -> Prop) (x y : option A) f g : x = y -> (forall a, orel2 S (f a) (g a)) -> orel2 S (ob x f) (ob y g).
Proof. intros <- K. destruct x; simpl; auto. Qed.
Lemma orel2_eq {A} (x y : option A) : orel2 eq x y -> x = y.
Proof. destruct x, y; simpl; intros H; auto; try contradiction. now subst. Qed.
Lemma eq_orel2 {A} (x y : option A) : x = y -> orel2 eq x y.
Proof. intros ->. destruct y; simpl; auto. Qed.

Record mirrored (g g' : geom) : Prop := {
  mg_q : g_q g' = g_q g; mg_ki : g_ki g' = g_ki g; mg_kf : g_kf g' = g_kf g; mg_tm : g_tm g' = - g_tm g; mg_ta : g_ta g' = - g_ta g;
  mg_2t : g_2t g' = - g_2t g; mg_c : cos (g_phi g') = cos (g_phi g); mg_s : sin (g_phi g') = - sin (g_phi g) }.
Definition vrel (pop : bool) (v v' : loopvars) : Prop :=
  v_alpha v' = v_alpha v /\ v_beta v' = v_beta v /\ v_ok v' = v_ok v /\
  exists e, (e = -1 \/ e = 1 /\ pop = false) /\ v_mrh v' = e * v_mrh v /\ v_mrv v' = e * v_mrv v /\ v_arh v' = e * v_arh v /\ v_arv v' = e * v_arv v.

Definition q8 := sg [true; true; false; false; true; true; false; false].
Definition q6 := sg [false; true; false; false; true; false].
Definition q4 := sg [false; true; false; false].
Definition u4 := sg [true; true; true; true].
Definition q13 := sg [true; false; true; false; false; false; true; false; true; false; false; true; false].
Definition q7 := sg [true; false; true; false; false; false; true].

Ltac ent := intros i j Li Lj; unfold conj_by;
  repeat (destruct i as [|i]; [repeat (destruct j as [|j]; [unfold mx, sg; cbn [nth]; unfold Rdiv; repeat (rewrite Rinv_mult || rewrite Rinv_opp); try ring|try lia])|try lia]).

Lemma mir_A g g' : mirrored g g' -> rel 6 8 q6 q8 (Am g) (Am g').
Proof. intros []. unfold Am. cbv zeta. rewrite mg_ki0, mg_kf0, mg_tm0, mg_ta0, !tan_neg. unfold q6, q8. ent. Qed.
Lemma mir_C g g' : mirrored g g' -> rel 4 8 u4 q8 (Cm g) (Cm g').
Proof. intros []. unfold Cm. rewrite mg_tm0, mg_ta0, !sin_neg. unfold u4, q8. ent. Qed.
Lemma mir_B g g' : mirrored g g' -> rel 4 6 q4 q6 (Bm g) (Bm g').
Proof.
  intros []. unfold Bm. cbv zeta. rewrite !sin_minus, !cos_minus. rewrite mg_ki0, mg_kf0, mg_2t0, mg_c0, mg_s0, !sin_neg, !cos_neg. unfold q4, q6. ent.
Qed.
Lemma mir_T L0 L1 L2 L3 v v' g g' : mirrored g g' -> vrel true v v' -> rel 4 13 u4 q13 (Tm L0 L1 L2 L3 v g) (Tm L0 L1 L2 L3 v' g').
Proof.
  intros [] (_ & _ & _ & e & He & E1 & E2 & E3 & E4). assert (e = -1) by (destruct He as [|[_ ?]]; [auto|discriminate]). subst e.
  replace (-1 * v_mrh v) with (- v_mrh v) in E1 by ring. replace (-1 * v_mrv v) with (- v_mrv v) in E2 by ring. replace (-1 * v_arh v) with (- v_arh v) in E3 by ring. replace (-1 * v_arv v) with (- v_arv v) in E4 by ring.
  unfold Tm. cbv zeta. rewrite mg_tm0, mg_ta0, mg_2t0, E1, E2, E3, E4. replace (- g_2t g / 2) with (- (g_2t g / 2)) by field. rewrite !sin_neg, !cos_neg. unfold u4, q13. ent.
Qed.
Lemma mir_D L0 L1 L2 L3 g g' : mirrored g g' -> rel 8 13 q8 q13 (Dm L0 L1 L2 L3 g) (Dm L0 L1 L2 L3 g').
Proof.
  intros []. unfold Dm. cbv zeta. rewrite mg_tm0, mg_ta0, mg_2t0. replace (- g_2t g / 2) with (- (g_2t g / 2)) by field. rewrite !sin_neg, !cos_neg. unfold q8, q13. ent.
Qed.
Lemma rel_ext n s A A' B B' : eqm n n A A' -> eqm n n B B' -> rel n n s s A B -> rel n n s s A' B'.
Proof. intros H K X i j Li Lj. rewrite <- K, X by auto. unfold conj_by. now rewrite H. Qed.
Lemma signs_tl n s : signs s -> signs (fun i => s (n + i)%nat).
Proof. intros H i. apply H. Qed.
Lemma rel_blk n m s A A' B B' : rel n n s s A A' -> rel m m (fun i => s (n + i)%nat) (fun i => s (n + i)%nat) B B' -> rel (n + m) (n + m) s s (blk n A B) (blk n A' B').
Proof.
  intros H K i j Li Lj. unfold blk, conj_by. destruct (Nat.ltb_spec i n), (Nat.ltb_spec j n); simpl.
  - now rewrite H.
  - assert (X : (n <=? i)%nat = false) by (apply Nat.leb_gt; lia). rewrite X. simpl. ring.
  - assert (X : (n <=? j)%nat = false) by (apply Nat.leb_gt; lia). rewrite X, andb_false_r. ring.
  - assert (X : (n <=? i)%nat = true) by (apply Nat.leb_le; lia). assert (Y : (n <=? j)%nat = true) by (apply Nat.leb_le; lia). rewrite X, Y. simpl. rewrite K by lia. unfold conj_by.
    now replace (n + (i - n))%nat with i by lia; replace (n + (j - n))%nat with j by lia.
Qed.
Lemma mir_rot g g' sh sh' : mirrored g g' -> rel 3 3 plane plane sh sh' -> rel 3 3 plane plane (rotated g sh) (rotated g' sh').
Proof.
  intros [] H. unfold rotated. cbv zeta. apply rel_mul with plane; [apply signs_sg|apply rel_mul with plane; [apply signs_sg| |auto]|apply rel_tr];
  replace (g_2t g' / 2 - g_phi g') with (- (g_2t g / 2) - g_phi g') by (rewrite mg_2t0; field); rewrite !sin_minus, !cos_minus, mg_c0, mg_s0, !sin_neg, !cos_neg; unfold plane; ent.
Qed.
Lemma mir_Sinv t g g' sh sh' : mirrored g g' -> rel 3 3 plane plane sh sh' -> rel 13 13 q13 q13 (Sinv t g sh) (Sinv (mirror t) g' sh').
Proof.
  intros G H. unfold Sinv. change (bshape (mirror t)) with (bshape t). change (dshape (mirror t)) with (dshape t). change (xshape (t_mono (mirror t))) with (xshape (t_mono t)). change (xshape (t_ana (mirror t))) with (xshape (t_ana t)).
  assert (W : forall s, signs s -> rel 2 2 s s (bshape t) (bshape t)) by (intros; unfold bshape; destruct (t_guide t); now apply rel_diag).
  assert (W2 : forall s, signs s -> rel 2 2 s s (dshape t) (dshape t)) by (intros; unfold dshape; destruct (t_detector t); now apply rel_diag).
  assert (Sg : signs q13) by apply signs_sg.
  apply (rel_blk 2 11); [now apply W|]. apply (rel_blk 3 8); [apply rel_diag; now apply (signs_tl 2)|]. apply (rel_blk 3 5).
  - assert (X := mir_rot g g' sh sh' G H). intros i j Li Lj. rewrite X by auto. unfold conj_by. do 3 (destruct i as [|i]; [do 3 (destruct j as [|j]; [reflexivity|]); lia|]). lia.
  - apply (rel_blk 3 2); [apply rel_diag|apply W2]; intros i; apply Sg.
Qed.
Lemma mir_F t : Fm (mirror t) = Fm t. Proof. reflexivity. Qed.
Lemma mir_G v v' b : vrel b v v' -> Gm v' = Gm v. Proof. intros (A & B & _). unfold Gm. now rewrite A, B. Qed.
Lemma rel_F4 t s : signs s -> rel 4 4 s s (Fm t) (Fm t). Proof. intros. now apply rel_diag. Qed.
Lemma rel_Gm n v s : signs s -> rel n n s s (Gm v) (Gm v). Proof. intros. now apply rel_diag. Qed.
Lemma sandwich_tr n k s u A A' N N' : signs u -> rel k n u s A A' -> rel k k u u N N' -> rel n n s s (mul k (tr A) (mul k N A)) (mul k (tr A') (mul k N' A')).
Proof. intros U H K. apply (rel_sandwich n k s u (tr A) (tr A') N N'); auto. now apply rel_tr. Qed.
Lemma mir_HG t v v' L0 L1 L2 L3 g g' sh sh' : mirrored g g' -> vrel true v v' -> rel 3 3 plane plane sh sh' ->
  orel 8 q8 (HG_popovici t v L0 L1 L2 L3 g sh) (HG_popovici (mirror t) v' L0 L1 L2 L3 g' sh').
Proof.
  intros G V H. unfold HG_popovici. rewrite mir_F, (mir_G v v' true) by auto. cbv zeta.
  apply (ob_rel (rel 13 13 q13 q13)); [apply rel_minv; [apply signs_sg|now apply mir_Sinv]|]. intros S S' HS.
  apply (ob_rel (rel 13 13 q13 q13)); [apply rel_minv; [apply signs_sg|]|].
  { apply rel_add; auto. apply sandwich_tr with u4; [apply signs_sg|now apply mir_T|apply rel_F4, signs_sg]. }
  intros K K' HK. apply (ob_rel (rel 8 8 q8 q8)); [apply rel_minv; [apply signs_sg|]|].
  { apply rel_sandwich with q13; [apply signs_sg|now apply mir_D|auto]. }
  intros P P' HP. simpl. apply rel_add; auto. apply rel_Gm, signs_sg.
Qed.
Lemma mir_Hc t v v' b g g' : mirrored g g' -> vrel b v v' -> rel 8 8 q8 q8 (H_cooper t v g) (H_cooper (mirror t) v' g').
Proof.
  intros G V. unfold H_cooper. rewrite mir_F, (mir_G v v' b) by auto. apply rel_add; [apply rel_Gm, signs_sg|]. apply sandwich_tr with u4; [apply signs_sg|now apply mir_C|apply rel_F4, signs_sg].
Qed.
Lemma mir_foc t v v' b g g' N N' : mirrored g g' -> vrel b v v' -> rel 6 6 q6 q6 N N' -> rel 6 6 q6 q6 (focused t v g N) (focused (mirror t) v' g' N').
Proof.
  intros G (Va & _) H i j Li Lj. unfold focused. change (etaa (mirror t)) with (etaa t). rewrite Va. destruct G. rewrite mg_kf0, mg_ta0, tan_neg.
  destruct (Nat.leb 3 i && Nat.ltb i 5 && Nat.leb 3 j && Nat.ltb j 5)%bool eqn:B.
  - assert (B' := B). rewrite !andb_true_iff, !Nat.leb_le, !Nat.ltb_lt in B'. destruct B' as (((B1 & B2) & B3) & B4). unfold conj_by. rewrite B. replace (- tan (g_ta g) / (etaa t * g_kf g)) with (- (tan (g_ta g) / (etaa t * g_kf g))) by (unfold Rdiv; ring).
    assert (Ci : i = 3%nat \/ i = 4%nat) by lia. assert (Cj : j = 3%nat \/ j = 4%nat) by lia. destruct Ci as [-> | ->], Cj as [-> | ->]; unfold mx, q6, sg; cbn [nth Nat.sub]; ring.
  - unfold conj_by. rewrite B. now apply H.
Qed.
Lemma mir_Ninv t v v' Ls g g' sh sh' : mirrored g g' -> vrel (popovici t) v v' -> rel 3 3 plane plane sh sh' ->
  orel2 (fun x y => rel 6 6 q6 q6 (fst x) (fst y) /\ rel 8 8 q8 q8 (snd x) (snd y)) (Ninv t v Ls g sh) (Ninv (mirror t) v' Ls g' sh').
Proof.
  intros G V H. destruct Ls as [[[L0 L1] L2] L3]. unfold Ninv. change (popovici (mirror t)) with (popovici t). change (horifoc (mirror t)) with (horifoc t).
  destruct (popovici t) eqn:P.
  - apply (ob_rel (rel 8 8 q8 q8)); [now apply mir_HG|]. intros X X' HX. apply (ob_rel (rel 8 8 q8 q8)); [apply rel_minv; [apply signs_sg|auto]|]. intros I I' HI. simpl. split; auto.
    apply rel_sandwich with q8; [apply signs_sg|now apply mir_A|auto].
  - assert (HH := mir_Hc t v v' false g g' G V). apply (ob_rel (rel 8 8 q8 q8)); [apply rel_minv; [apply signs_sg|auto]|]. intros I I' HI. cbv zeta.
    assert (HN : rel 6 6 q6 q6 (mul 8 (Am g) (mul 8 I (tr (Am g)))) (mul 8 (Am g') (mul 8 I' (tr (Am g'))))) by (apply rel_sandwich with q8; [apply signs_sg|now apply mir_A|auto]).
    destruct (0 <? horifoc t)%Z; [|simpl; auto]. apply (ob_rel (rel 6 6 q6 q6)); [apply rel_minv; [apply signs_sg|auto]|]. intros N N' HN'. 
    apply (ob_rel (rel 6 6 q6 q6)); [apply rel_minv; [apply signs_sg|now apply mir_foc with false]|]. intros N2 N2' H2. simpl. auto.
Qed.
Lemma det_rel n s A B : signs s -> rel n n s s A B -> orel2 eq (detm n A) (detm n B).
Proof. intros S H. apply eq_orel2. symmetry. now apply rel_det with s. Qed.
Lemma mir_Rmon t v v' L0 Lm g g' : mirrored g g' -> vrel (popovici t) v v' -> orel2 eq (Rmon t v L0 Lm g) (Rmon (mirror t) v' L0 Lm g').
Proof.
  intros G V. assert (C := mir_C g g' G). assert (EG := mir_G v v' _ V). unfold Rmon. rewrite mir_F, EG. change (popovici (mirror t)) with (popovici t). change (bshape (mirror t)) with (bshape t). change (xshape (t_mono (mirror t))) with (xshape (t_mono t)). change (monitorshape (mirror t)) with (monitorshape t).
  cbv zeta. set (tt := mx [[- 1 / (2 * L0); 0; cos (g_tm g) * _ / 2; _; _; _; _]; _]). set (tt' := mx [[- 1 / (2 * L0); 0; cos (g_tm g') * _ / 2; _; _; _; _]; _]).
  set (d := mx [[- 1 / L0; 0; - cos (g_tm g) / L0; _; _; _; _]; _; _; _]). set (d' := mx [[- 1 / L0; 0; - cos (g_tm g') / L0; _; _; _; _]; _; _; _]).
  assert (S7 : rel 7 7 q7 q7 (blk 2 (bshape t) (blk 3 (xshape (t_mono t)) (monitorshape t))) (blk 2 (bshape t) (blk 3 (xshape (t_mono t)) (monitorshape t)))).
  { assert (Sg : signs q7) by apply signs_sg. apply (rel_blk 2 5); [unfold bshape; destruct (t_guide t); now apply rel_diag|]. apply (rel_blk 3 2); [apply rel_diag; now apply (signs_tl 2)|].
    unfold monitorshape; destruct (t_monitor t); apply rel_diag; intros i; apply Sg. }
  apply (ob_rel (rel 7 7 q7 q7)); [apply rel_minv; [apply signs_sg|auto]|]. intros s s' Hs. destruct G.
  apply (ob_rel (rel 4 4 q8 q8)).
  - destruct (popovici t).
    + destruct V as (_ & _ & _ & e & He & E1 & E2 & _ & _). assert (e = -1) by (destruct He as [|[_ ?]]; [auto|discriminate]). subst e.
      replace (-1 * v_mrh v) with (- v_mrh v) in E1 by ring. replace (-1 * v_mrv v) with (- v_mrv v) in E2 by ring.
      assert (Rt : rel 2 7 u4 q7 tt tt'). { unfold tt, tt'. rewrite mg_tm0, E1, E2, sin_neg, cos_neg. unfold u4, q7. ent. }
      assert (Rd : rel 4 7 q8 q7 d d'). { unfold d, d'. rewrite mg_tm0, sin_neg, cos_neg. unfold q8, q7. ent. }
      apply (ob_rel (rel 7 7 q7 q7)); [apply rel_minv; [apply signs_sg|]|].
      { apply rel_add; auto. apply sandwich_tr with u4; [apply signs_sg|auto|apply rel_diag, signs_sg]. }
      intros K K' HK. apply (ob_rel (rel 4 4 q8 q8)); [apply rel_minv; [apply signs_sg|]|].
      { apply rel_sandwich with q7; [apply signs_sg|auto|auto]. }
      intros h h' Hh. simpl. apply rel_add; auto. apply rel_Gm, signs_sg.
    + simpl. apply rel_add; [apply rel_Gm, signs_sg|]. apply sandwich_tr with u4; [apply signs_sg| |apply rel_diag, signs_sg]. intros i j Li Lj. apply C; lia.
  - intros h h' Hh. apply ob_eq; [reflexivity|]. intros df. apply (ob_rel eq); [apply det_rel with q8; [apply signs_sg|auto]|]. intros dh dh' <-. simpl. rewrite mg_ki0, mg_tm0, tan_neg, sin_neg. unfold Rdiv. repeat (rewrite Rinv_mult || rewrite Rinv_opp). ring.
Qed.
Lemma mir_pre t v v' L0 Lm g g' HG HG' M M' : mirrored g g' -> vrel (popovici t) v v' -> rel 8 8 q8 q8 HG HG' -> rel 4 4 q4 q4 M M' ->
  orel2 eq (prefactor t v L0 Lm g HG M) (prefactor (mirror t) v' L0 Lm g' HG' M').
Proof.
  intros G V HH HM. assert (Rm := mir_Rmon t v v' L0 Lm g g' G V). unfold prefactor. rewrite mir_F. change (moncor (mirror t)) with (moncor t). cbv zeta.
  apply ob_eq; [reflexivity|]. intros df. apply (ob_rel eq); [apply det_rel with q8; [apply signs_sg|auto]|]. intros dh dh' <-. destruct G. rewrite mg_ki0, mg_kf0.
  apply (ob_rel eq).
  - rewrite mg_tm0, mg_ta0, !tan_neg, !sin_neg.
    assert (E : g_ki g ^ 3 / - tan (g_tm g) * (g_kf g ^ 3 / - tan (g_ta g)) * (2 * PI) ^ 4 / (64 * PI ^ 2 * - sin (g_tm g) * - sin (g_ta g)) = g_ki g ^ 3 / tan (g_tm g) * (g_kf g ^ 3 / tan (g_ta g)) * (2 * PI) ^ 4 / (64 * PI ^ 2 * sin (g_tm g) * sin (g_ta g))).
    { unfold Rdiv. repeat (rewrite Rinv_mult || rewrite Rinv_opp). ring. }
    rewrite E. destruct (moncor t =? 1)%Z; [|simpl; auto]. apply (ob_rel eq); auto. intros m m' <-. simpl. auto.
  - intros r r' <-. apply (ob_rel eq); [apply det_rel with q4; [apply signs_sg|auto]|]. intros x x' <-. simpl. auto.
Qed.
Definition mirrored_result (x y : R * mat) : Prop := fst y = fst x /\ rel 4 4 q4 q4 (snd x) (snd y).
Lemma mir_mosaic t q Mi Mi' M M' r : rel 4 4 q4 q4 Mi Mi' -> rel 4 4 q4 q4 M M' -> orel2 mirrored_result (with_mosaic t q Mi M r) (with_mosaic (mirror t) q Mi' M' r).
Proof.
  intros Hi HM. unfold with_mosaic. change (s_mosaic (mirror t)) with (s_mosaic t). change (s_vmosaic (mirror t)) with (s_vmosaic t). destruct (s_mosaic t); [|simpl; split; auto]. cbv zeta.
  assert (S4 : signs q4) by apply signs_sg.
  apply (ob_rel (rel 4 4 q4 q4)); [apply rel_minv; auto; apply rel_add; auto; now apply rel_diag|]. intros N N' HN. simpl. split; auto. simpl.
  rewrite (rel_entry 4 q4 M M' 2 S4 HM), (rel_entry 4 q4 M M' 1 S4 HM) by lia. reflexivity.
Qed.
Lemma mir_at t v v' Ls g g' sh sh' : mirrored g g' -> vrel (popovici t) v v' -> rel 3 3 plane plane sh sh' ->
  orel2 mirrored_result (resolution_at t v Ls g sh) (resolution_at (mirror t) v' Ls g' sh').
Proof.
  intros G V H. destruct Ls as [[[[L0 L1] L2] L3] Lm]. unfold resolution_at. apply (ob_rel (rel 13 13 q13 q13)); [apply rel_minv; [apply signs_sg|now apply mir_Sinv]|]. intros _ _ _.
  apply (ob_rel (fun x y => rel 6 6 q6 q6 (fst x) (fst y) /\ rel 8 8 q8 q8 (snd x) (snd y))); [now apply mir_Ninv|]. intros [N HG] [N' HG'] [HN HH]. simpl in HN, HH. cbv zeta.
  assert (HMi : rel 4 4 q4 q4 (Minv g N) (Minv g' N')) by (apply rel_sandwich with q6; [apply signs_sg|now apply mir_B|auto]).
  apply (ob_rel (rel 4 4 q4 q4)); [apply rel_minv; [apply signs_sg|auto]|]. intros M M' HM. apply (ob_rel eq); [now apply mir_pre|]. intros r r' <-.
  assert (Eq : g_q g' = g_q g) by apply G. rewrite Eq.
  apply (ob_rel mirrored_result); [now apply mir_mosaic|]. intros [r1 M1] [r2 M2] [E1 E2]. simpl in E1, E2. subst r2. change (t_thickness (mirror t)) with (t_thickness t). change (t_Q (mirror t)) with (t_Q t).
  destruct (t_thickness t); [|simpl; split; auto]. destruct (t_Q t); [|simpl; split; auto]. simpl. split; auto. simpl. f_equal. unfold reflectivity. change (x_tau (t_ana (mirror t))) with (x_tau (t_ana t)). change (etaa (mirror t)) with (etaa t).
  destruct V as (Va & _). rewrite Va. destruct G. now rewrite mg_kf0.
Qed.

Lemma atan2_neg y x : cos (MatModel.atan2 (- y) x) = cos (MatModel.atan2 y x) /\ sin (MatModel.atan2 (- y) x) = - sin (MatModel.atan2 y x).
Proof.
  unfold MatModel.atan2. replace (- y / x) with (- (y / x)) by (unfold Rdiv; ring). rewrite atan_opp.
  destruct (Rlt_dec 0 x); [now rewrite cos_neg, sin_neg|]. destruct (Rlt_dec x 0) as [X|X].
  - destruct (Rle_dec 0 y), (Rle_dec 0 (- y)); try (exfalso; lra).
    + assert (y = 0) by lra. subst y. unfold Rdiv. rewrite Rmult_0_l, atan_0, Ropp_0, Rplus_0_l, sin_PI, cos_PI. split; lra.
    + replace (- atan (y / x) - PI) with (- (atan (y / x) + PI)) by ring. now rewrite cos_neg, sin_neg.
    + replace (- atan (y / x) + PI) with (- (atan (y / x) - PI)) by ring. now rewrite cos_neg, sin_neg.
  - destruct (Rlt_dec 0 y), (Rlt_dec 0 (- y)); try (exfalso; lra).
    + destruct (Rlt_dec (- y) 0); [|exfalso; lra]. now rewrite cos_neg, sin_neg.
    + destruct (Rlt_dec y 0); [|exfalso; lra]. rewrite cos_neg, sin_neg. split; lra.
    + destruct (Rlt_dec y 0); [exfalso; lra|]. destruct (Rlt_dec (- y) 0); [exfalso; lra|]. rewrite sin_0, cos_0. split; lra.
Qed.
Lemma mir_sshape t ind : orel2 (rel 3 3 plane plane) (sshapes t ind) (sshapes (mirror t) ind).
Proof.
  unfold sshapes. change (s_width (mirror t)) with (s_width t). change (s_depth (mirror t)) with (s_depth t). change (s_height (mirror t)) with (s_height t). change (factor (mirror t)) with (factor t).
  assert (D : orel2 (rel 3 3 plane plane)
    match s_shape t with None => Some idm | Some (S2 m) => Some (fun i j => m i j / factor t) | Some (S3 l) => match nth_error l ind with Some m => Some (fun i j => m i j / factor t) | None => None end end
    match s_shape (mirror t) with None => Some idm | Some (S2 m) => Some (fun i j => m i j / factor t) | Some (S3 l) => match nth_error l ind with Some m => Some (fun i j => m i j / factor t) | None => None end end).
  { simpl. destruct (s_shape t) as [[m|l]|]; simpl.
    - intros i j Li Lj. unfold mirror_m, conj_by. unfold Rdiv. ring.
    - rewrite nth_error_map. destruct (nth_error l ind); simpl; auto. intros i j Li Lj. unfold mirror_m, conj_by, Rdiv. ring.
    - intros i j Li Lj. unfold conj_by, idm. assert (S := signs_sg [false; true; false] j). fold plane in S. destruct (Nat.eqb_spec i j); subst; [rewrite Rmult_1_r; auto|ring]. }
  destruct (s_width t); auto. destruct (s_depth t); auto. destruct (s_height t); auto. simpl. apply rel_diag, signs_sg.
Qed.
Definition srel (e : R) (v v' : loopvars) : Prop :=
  v_alpha v' = v_alpha v /\ v_beta v' = v_beta v /\ v_ok v' = v_ok v /\
  v_mrh v' = e * v_mrh v /\ v_mrv v' = e * v_mrv v /\ v_arh v' = e * v_arh v /\ v_arv v' = e * v_arv v.
Definition rres {A B} (R : A -> B -> Prop) (x : res A) (y : res B) : Prop :=
  match x, y with Ok a, Ok b => R a b | Err e, Err f => e = f | _, _ => False end.
Lemma bind_rel {A B C D} (R : A -> B -> Prop) (S : C -> D -> Prop) x y f g : rres R x y -> (forall a b, R a b -> rres S (f a) (g b)) -> rres S (bind x f) (bind y g).
Proof. destruct x, y; simpl; intros H K; auto; contradiction. Qed.
Lemma nonzero_rel t v v' e Ls : e <> 0 -> srel e v v' -> nonzero (mirror t) v' Ls = nonzero t v Ls.
Proof.
  intros Ne (A & B & _ & E1 & E2 & E3 & E4). destruct Ls as [[[[L0 L1] L2] L3] Lm]. unfold nonzero. rewrite A, B, E1, E2, E3, E4.
  change (etam (mirror t)) with (etam t). change (etamv (mirror t)) with (etamv t). change (etaa (mirror t)) with (etaa t). change (etaav (mirror t)) with (etaav t).
  assert (Z : forall x, (if Req_EM_T (e * x) 0 then false else true) = (if Req_EM_T x 0 then false else true)).
  { intros x. destruct (Req_EM_T x 0) as [-> |N]; destruct (Req_EM_T _ 0) as [M|M]; auto; [exfalso; apply M; ring|]. exfalso. destruct (Rmult_integral _ _ M); auto. }
  rewrite !forallb_app. cbn [forallb]. rewrite !Z. reflexivity.
Qed.
Lemma mir_point t Ls v v' e ind q w : (e = 1 \/ e = -1 /\ popovici t = false) -> srel e v v' ->
  rres (fun x y => srel (- e) (fst x) (fst y) /\ orel2 mirrored_result (snd x) (snd y)) (point t Ls v ind q w) (point (mirror t) Ls v' ind q w).
Proof.
  intros He V. assert (Ne : - e <> 0) by (destruct He as [|[? _]]; subst; lra).
  unfold point. assert (Sh := mir_sshape t ind). destruct (sshapes t ind) as [sh|], (sshapes (mirror t) ind) as [sh'|]; simpl in Sh; try contradiction; [|reflexivity].
  change (energies (mirror t) w) with (energies t w). destruct (energies t w) as [ei ef]. change (x_dir (t_mono (mirror t))) with (- x_dir (t_mono t)). change (x_dir (t_ana (mirror t))) with (- x_dir (t_ana t)).
  change (s_dir (mirror t)) with (- s_dir t). change (x_tau (t_mono (mirror t))) with (x_tau (t_mono t)). change (x_tau (t_ana (mirror t))) with (x_tau (t_ana t)). cbv zeta.
  assert (V' := V). destruct V' as (A & B & O & E1 & E2 & E3 & E4).
  assert (N : forall a b o, srel (- e) (mkV a b (v_mrh v * x_dir (t_mono t)) (v_mrv v * x_dir (t_mono t)) (v_arh v * x_dir (t_ana t)) (v_arv v * x_dir (t_ana t)) o)
     (mkV a b (v_mrh v' * - x_dir (t_mono t)) (v_mrv v' * - x_dir (t_mono t)) (v_arh v' * - x_dir (t_ana t)) (v_arv v' * - x_dir (t_ana t)) o)).
  { intros. unfold srel. simpl. rewrite E1, E2, E3, E4. repeat split; ring. }
  rewrite A, B, O. destruct (Rlt_dec 0 ei).
  - destruct (Rlt_dec ef 0); [simpl; auto|]. destruct (Req_EM_T (sqrt (ef / CONVERT2)) 0); [destruct (Req_EM_T _ _); simpl; auto|].
    destruct (Rlt_dec _ _); [simpl; auto|]. cbn [rres fst snd]. split; [apply N|].
    set (ki := sqrt (ei / CONVERT2)). set (kf := sqrt (ef / CONVERT2)).
    rewrite (nonzero_rel t _ _ (- e) Ls Ne (N (guided ki (v_alpha v)) (guided ki (v_beta v)) (v_ok v))). destruct (_ && _ && _ && _)%bool; [|simpl; auto].
    apply mir_at; auto.
    + set (a := acos ((ki ^ 2 + kf ^ 2 - q ^ 2) / (2 * ki * kf))). replace (a * - s_dir t) with (- (a * s_dir t)) by ring. rewrite sin_neg, cos_neg.
      destruct (atan2_neg (- kf * sin (a * s_dir t)) (ki - kf * cos (a * s_dir t))) as [Hc Hs]. replace (- (- kf * sin (a * s_dir t))) with (- kf * - sin (a * s_dir t)) in Hc, Hs by ring.
      constructor; cbn [g_q g_ki g_kf g_tm g_ta g_2t g_phi]; auto; ring.
    + destruct (N (guided ki (v_alpha v)) (guided ki (v_beta v)) (v_ok v)) as (N1 & N2 & N3 & N4). split; auto. split; auto. split; auto. exists (- e). split; auto. destruct He as [-> | [-> P]]; [left; lra|right; split; [lra|auto]].
  - destruct (if Req_EM_T ei 0 then _ else false); simpl; auto.
Qed.
Lemma mir_loop t Ls l : forall v v' e ind, (popovici t = false \/ (List.length l <= 1)%nat) -> (e = 1 \/ e = -1 /\ popovici t = false) -> srel e v v' ->
  rres (Forall2 (orel2 mirrored_result)) (loop t Ls v ind l) (loop (mirror t) Ls v' ind l).
Proof.
  induction l as [|[q w] r IH]; intros v v' e ind P He V; simpl; [constructor|].
  apply (bind_rel (fun x y => srel (- e) (fst x) (fst y) /\ orel2 mirrored_result (snd x) (snd y))); [now apply mir_point|].
  intros [v1 x] [v1' x'] [V1 X]. simpl in V1, X. apply (bind_rel (Forall2 (orel2 mirrored_result))); [|intros a b H; simpl; now constructor].
  destruct r as [|p r]; [simpl; constructor|]. destruct P as [P|P]; [|simpl in P; lia]. apply IH with (- e); auto. destruct He as [-> | [-> _]]; [right; split; auto; lra|left; lra].
Qed.

(** Wider collimation, larger mosaics and larger pieces: what each step of calc_in_Q does. *)
From Coq Require Import String List ZArith Reals Lra Lia Psatz Bool.
From Verif Require Import Base MatInv TasModel TasProof.
Import ListNotations.
Local Open Scope R_scope.

Definition grow (a b : R) : Prop := 0 < a <= b \/ b <= a < 0.
Definition grow_opt (o p : option R) : Prop := match o, p with Some a, Some b => grow a b | None, None => True | _, _ => False end.
Record grow_x (x y : crystal) : Prop := {
  gx_tau : x_tau y = x_tau x; gx_dir : x_dir y = x_dir x; gx_rv : x_rv y = x_rv x; gx_rh : x_rh y = x_rh x;
  gx_mosaic : grow (x_mosaic x) (x_mosaic y); gx_vmosaic : grow_opt (x_vmosaic x) (x_vmosaic y);
  gx_width : grow_opt (x_width x) (x_width y); gx_height : grow_opt (x_height x) (x_height y); gx_depth : grow_opt (x_depth x) (x_depth y) }.
Definition grow_w (o p : option window) : Prop :=
  match o, p with Some w, Some w' => grow_opt (w_width w) (w_width w') /\ grow_opt (w_height w) (w_height w') | None, None => True | _, _ => False end.
Definition grow_shape (o p : option shape) : Prop :=
  match o, p with
  | None, None => True
  | Some (S2 m), Some (S2 m') => le 3 m m'
  | Some (S3 l), Some (S3 l') => Forall2 (le 3) l l'
  | _, _ => False
  end.
Record wider (t t' : tas) : Prop := {
  wd_method : t_method t' = t_method t; wd_infin : t_infin t' = t_infin t; wd_efixed : t_efixed t' = t_efixed t; wd_arms : t_arms t' = t_arms t;
  wd_horifoc : t_horifoc t' = t_horifoc t; wd_sdir : s_dir t' = s_dir t; wd_type : s_type t' = s_type t;
  wd_hcol : forall i, (i < 4)%nat -> grow (t_hcol t i) (t_hcol t' i); wd_vcol : forall i, (i < 4)%nat -> grow (t_vcol t i) (t_vcol t' i);
  wd_mono : grow_x (t_mono t) (t_mono t'); wd_ana : grow_x (t_ana t) (t_ana t');
  wd_guide : grow_w (t_guide t) (t_guide t'); wd_detector : grow_w (t_detector t) (t_detector t');
  wd_mosaic : match s_mosaic t, s_mosaic t' with None, _ => True | Some a, Some b => a ^ 2 <= b ^ 2 /\ (match s_vmosaic t, s_vmosaic t' with Some c, Some d => c ^ 2 <= d ^ 2 | None, None => True | _, _ => False end) | Some _, None => False end;
  wd_width : grow_opt (s_width t) (s_width t'); wd_depth : grow_opt (s_depth t) (s_depth t'); wd_height : grow_opt (s_height t) (s_height t');
  wd_shape : grow_shape (s_shape t) (s_shape t') }.

Lemma grow_sq a b : grow a b -> 0 < a ^ 2 <= b ^ 2.
Proof. intros [H|H]; nra. Qed.
Lemma grow_scal a b k : 0 < k -> grow a b -> grow (a * k) (b * k).
Proof. intros K [H|H]; [left|right]; nra. Qed.
Lemma grow_inv a b : grow a b -> 1 / b ^ 2 <= 1 / a ^ 2.
Proof. intros H. destruct (grow_sq _ _ H). unfold Rdiv. rewrite !Rmult_1_l. apply Rinv_le_contravar; auto. Qed.
Lemma grow_size o p : grow_opt o p -> size o <= size p.
Proof. destruct o, p; simpl; intros H; try contradiction; [|lra]. destruct (grow_sq _ _ H). nra. Qed.
Lemma sum_diag_le n d e : List.length d = List.length e -> Forall2 Rle d e -> le n (diag d) (diag e).
Proof.
  intros _ F. apply le_diag. intros i _. revert i. induction F as [|a b d e H F IH]; intros [|i]; simpl; try lra. apply IH.
Qed.
Ltac f2 := repeat first [apply Forall2_nil | apply Forall2_cons].
Lemma le_xshape x y : grow_x x y -> le 3 (xshape x) (xshape y).
Proof. intros []. apply sum_diag_le; auto. f2; now apply grow_size. Qed.
Lemma le_window o p : grow_w o p -> le 2 (match o with Some w => diag [size (w_width w); size (w_height w)] | None => diag [1; 1] end) (match p with Some w => diag [size (w_width w); size (w_height w)] | None => diag [1; 1] end).
Proof. destruct o, p; simpl; intros H; try contradiction; [|apply le_refl]. apply sum_diag_le; auto. f2; apply grow_size; tauto. Qed.
Lemma le_rotated g m m' : le 3 m m' -> le 3 (rotated g m) (rotated g m').
Proof.
  intros H. unfold rotated. cbv zeta. set (rot := mx _). apply le_ext with (mul 3 rot (mul 3 m (tr rot))) (mul 3 rot (mul 3 m' (tr rot))); [apply eqm_sym, mul_assoc|apply eqm_sym, mul_assoc|]. now apply le_congr.
Qed.
Lemma le_Sinv t t' g sh sh' : wider t t' -> le 3 sh sh' -> le 13 (Sinv t g sh) (Sinv t' g sh').
Proof.
  intros [] H. unfold Sinv. apply (le_blk 2 11); [now apply le_window|]. apply (le_blk 3 8); [now apply le_xshape|]. apply (le_blk 3 5); [now apply le_rotated|]. apply (le_blk 3 2); [now apply le_xshape|now apply le_window].
Qed.
Lemma meth_eq t t' : wider t t' -> meth t' = meth t. Proof. intros []. unfold meth. now rewrite wd_method0. Qed.
Lemma pop_eq t t' : wider t t' -> popovici t' = popovici t. Proof. intros W. unfold popovici. now rewrite (meth_eq t t'). Qed.
Lemma grow_etas t t' : wider t t' -> grow (etam t) (etam t') /\ grow (etamv t) (etamv t') /\ grow (etaa t) (etaa t') /\ grow (etaav t) (etaav t').
Proof.
  intros W. assert (M := meth_eq _ _ W). destruct W. destruct wd_mono0, wd_ana0. assert (C := C1_pos). unfold etam, etamv, etaa, etaav, etam, etaa. rewrite M.
  split; [now apply grow_scal|]. split; [|split; [now apply grow_scal|]].
  - destruct (x_vmosaic (t_mono t)), (x_vmosaic (t_mono t')); simpl in *; try contradiction; [|now apply grow_scal]. destruct (_ || _)%bool; now apply grow_scal.
  - destruct (x_vmosaic (t_ana t)), (x_vmosaic (t_ana t')); simpl in *; try contradiction; now apply grow_scal.
Qed.
Lemma le_F t t' : wider t t' -> le 4 (Fm t') (Fm t).
Proof. intros W. destruct (grow_etas t t' W) as (A & B & C & D). apply sum_diag_le; auto. f2; now apply grow_inv. Qed.
Definition vgrow (v v' : loopvars) : Prop :=
  (forall i, (i < 4)%nat -> grow (v_alpha v i) (v_alpha v' i) /\ grow (v_beta v i) (v_beta v' i)) /\
  v_mrh v' = v_mrh v /\ v_mrv v' = v_mrv v /\ v_arh v' = v_arh v /\ v_arv v' = v_arv v.
Lemma le_G v v' : vgrow v v' -> le 8 (Gm v') (Gm v).
Proof. intros [H _]. apply sum_diag_le; auto. f2; apply grow_inv; apply H; lia. Qed.
Lemma T_eq v v' L0 L1 L2 L3 g : vgrow v v' -> Tm L0 L1 L2 L3 v' g = Tm L0 L1 L2 L3 v g.
Proof. intros (_ & A & B & C & D). unfold Tm. now rewrite A, B, C, D. Qed.
Lemma le_sandwich_tr n k T F F' : le k F F' -> le n (mul k (tr T) (mul k F T)) (mul k (tr T) (mul k F' T)).
Proof. intros H. apply (le_congr n k (tr T) F F' H). Qed.
Lemma le_Hc t t' v v' g : wider t t' -> vgrow v v' -> le 8 (H_cooper t' v' g) (H_cooper t v g).
Proof. intros W V. apply le_add; [now apply le_G|]. apply le_sandwich_tr. now apply le_F. Qed.
Section Pair.
Context (t t' : tas) (n : nat) (U : usable t n) (U' : usable t' n) (W : wider t t') (v v' : loopvars) (V : vars_ok v) (V' : vars_ok v') (VG : vgrow v v')
  (g : geom) (G : good_geom g) (sh sh' : mat) (S : posdef 3 sh) (S' : posdef 3 sh') (LS : le 3 sh sh')
  (L0 L1 L2 L3 : R) (N0 : L0 <> 0) (N1 : L1 <> 0) (N2 : L2 <> 0) (N3 : L3 <> 0).
Lemma le_Hp : exists HG HG', HG_popovici t v L0 L1 L2 L3 g sh = Some HG /\ HG_popovici t' v' L0 L1 L2 L3 g sh' = Some HG' /\ posdef 8 HG /\ posdef 8 HG' /\ le 8 HG' HG.
Proof.
  unfold HG_popovici.
  destruct (minv_posdef 13 _ (posdef_Sinv t g n sh U S)) as [Sm [-> [IS PS]]]. destruct (minv_posdef 13 _ (posdef_Sinv t' g n sh' U' S')) as [Sm' [-> [IS' PS']]]. cbn [ob]. rewrite (T_eq v v') by auto.
  assert (LSm : le 13 Sm' Sm). { apply inverse_anti with (Sinv t g sh) (Sinv t' g sh'); auto; [now apply (posdef_Sinv t g n)|now apply (posdef_Sinv t' g n)|now apply le_Sinv]. }
  set (T := Tm L0 L1 L2 L3 v g).
  destruct (FT 13 4 (Fm t) T (posdef_F t n U)) as [F1 F2]. destruct (FT 13 4 (Fm t') T (posdef_F t' n U')) as [F1' F2'].
  assert (PK := posdef_add_nonneg 13 _ _ PS F1 F2). assert (PK' := posdef_add_nonneg 13 _ _ PS' F1' F2').
  destruct (minv_posdef 13 _ PK) as [Ki [-> [IK PKi]]]. destruct (minv_posdef 13 _ PK') as [Ki' [-> [IK' PKi']]]. cbn [ob].
  assert (LK : le 13 Ki Ki'). { eapply inverse_anti; [exact PK'|exact PK|exact IK'|exact IK|]. apply le_add; auto. apply le_sandwich_tr. now apply le_F. }
  assert (RD := rank_D L0 L1 L2 L3 g G N0 N1 N2 N3). assert (PD := posdef_congr 8 13 _ _ PKi RD). assert (PD' := posdef_congr 8 13 _ _ PKi' RD).
  destruct (minv_posdef 8 _ PD) as [H [-> [IH PH]]]. destruct (minv_posdef 8 _ PD') as [H' [-> [IH' PH']]]. cbn [ob].
  assert (LH : le 8 H' H). { eapply inverse_anti; [exact PD|exact PD'|exact IH|exact IH'|]. now apply le_congr. }
  eexists _, _. split; [reflexivity|]. split; [reflexivity|]. split; [|split].
  - apply posdef_add_nonneg; auto; [apply symm_diag|]. intros x. apply posdef_nonneg. now apply posdef_G.
  - apply posdef_add_nonneg; auto; [apply symm_diag|]. intros x. apply posdef_nonneg. now apply posdef_G.
  - apply le_add; auto. now apply le_G.
Qed.
Lemma focused_qf (T : tas) w N : eqm 6 6 (conj_by s6a s6a N) N -> forall x,
  qf 6 (focused T w g N) x = qf 6 N (fun i => if (Nat.leb 3 i && Nat.ltb i 5)%bool then 0 else x i) + (tan (g_ta g) / (etaa T * g_kf g)) ^ 2 * x 3%nat ^ 2 + (1 / (g_kf g * v_alpha w 2%nat)) ^ 2 * x 4%nat ^ 2.
Proof.
  intros E x. assert (Z : forall i j, (i < 6)%nat -> (j < 6)%nat -> nth i [false; false; false; true; true; false] false <> nth j [false; false; false; true; true; false] false -> N i j = 0).
  { intros. now apply (sg_off [false; false; false; true; true; false] 6). }
  set (d3 := (tan (g_ta g) / (etaa T * g_kf g)) ^ 2). set (d4 := (1 / (g_kf g * v_alpha w 2%nat)) ^ 2).
  unfold qf, focused. cbn [sum Nat.leb Nat.ltb andb Nat.sub]. unfold mx. cbn [nth]. fold d3 d4.
  rewrite (Z 0 3)%nat, (Z 0 4)%nat, (Z 1 3)%nat, (Z 1 4)%nat, (Z 2 3)%nat, (Z 2 4)%nat, (Z 5 3)%nat, (Z 5 4)%nat by (try lia; discriminate).
  rewrite (Z 3 0)%nat, (Z 4 0)%nat, (Z 3 1)%nat, (Z 4 1)%nat, (Z 3 2)%nat, (Z 4 2)%nat, (Z 3 5)%nat, (Z 4 5)%nat by (try lia; discriminate). ring.
Qed.
Lemma dec_N (T : tas) w I : inverse 8 (H_cooper T w g) I -> eqm 6 6 (conj_by s6a s6a (mul 8 (Am g) (mul 8 I (tr (Am g))))) (mul 8 (Am g) (mul 8 I (tr (Am g)))).
Proof. intros HI. apply conj_sandwich with s8a; [apply signs_sg| |apply dec_A]. apply conj_inverse with (H_cooper T w g); [apply signs_sg|auto|apply dec_H]. Qed.
Lemma sq_le_div a b k : grow a b -> (k / b) ^ 2 <= (k / a) ^ 2.
Proof.
  intros H. assert (X := grow_inv a b H). destruct (grow_sq a b H) as [Y1 Y2]. assert (Na : a <> 0) by (destruct H; lra). assert (Nb : b <> 0) by (destruct H; lra).
  replace ((k / b) ^ 2) with (k ^ 2 * (1 / b ^ 2)) by (field; auto). replace ((k / a) ^ 2) with (k ^ 2 * (1 / a ^ 2)) by (field; auto). apply Rmult_le_compat_l; auto. apply pow2_ge_0.
Qed.
Lemma le_N : exists N N' HG HG', Ninv t v (L0, L1, L2, L3) g sh = Some (N, HG) /\ Ninv t' v' (L0, L1, L2, L3) g sh' = Some (N', HG') /\ posdef 6 N /\ posdef 6 N' /\ le 6 N N'.
Proof.
  unfold Ninv. rewrite (pop_eq t t') by auto. assert (EH : horifoc t' = horifoc t) by (unfold horifoc; now rewrite (wd_horifoc _ _ W)). rewrite EH. destruct (popovici t).
  - destruct le_Hp as (HG & HG' & -> & -> & PH & PH' & LH). cbn [ob]. destruct (minv_posdef 8 _ PH) as [I [-> [II PI]]]. destruct (minv_posdef 8 _ PH') as [I' [-> [II' PI']]]. cbn [ob].
    eexists _, _, _, _. split; [reflexivity|]. split; [reflexivity|]. split; [apply posdef_congr; auto; now apply rank_A|]. split; [apply posdef_congr; auto; now apply rank_A|].
    apply le_congr. eapply inverse_anti; [exact PH'|exact PH|exact II'|exact II|auto].
  - assert (PH := posdef_Hc t v g n U V). assert (PH' := posdef_Hc t' v' g n U' V').
    destruct (minv_posdef 8 _ PH) as [I [-> [II PI]]]. destruct (minv_posdef 8 _ PH') as [I' [-> [II' PI']]]. cbn [ob].
    assert (LI : le 8 I I') by (eapply inverse_anti; [exact PH'|exact PH|exact II'|exact II|now apply le_Hc]).
    assert (LN := le_congr 6 8 (Am g) I I' LI). assert (PN := posdef_congr 6 8 _ _ PI (rank_A g G)). assert (PN' := posdef_congr 6 8 _ _ PI' (rank_A g G)).
    assert (DN := dec_N t v I II). assert (DN' := dec_N t' v' I' II').
    set (N := mul 8 (Am g) (mul 8 I (tr (Am g)))) in *. set (N' := mul 8 (Am g) (mul 8 I' (tr (Am g)))) in *.
    destruct (0 <? horifoc t)%Z; [|eexists _, _, _, _; split; [reflexivity|]; split; [reflexivity|]; auto].
    destruct (minv_posdef 6 _ PN) as [J [-> [IJ PJ]]]. destruct (minv_posdef 6 _ PN') as [J' [-> [IJ' PJ']]]. cbn [ob].
    assert (DJ : eqm 6 6 (conj_by s6a s6a J) J) by (apply conj_inverse with N; auto; apply signs_sg). assert (DJ' : eqm 6 6 (conj_by s6a s6a J') J') by (apply conj_inverse with N'; auto; apply signs_sg).
    assert (PF := focused_posdef t v g n J U V G PJ DJ). assert (PF' := focused_posdef t' v' g n J' U' V' G PJ' DJ').
    destruct (minv_posdef 6 _ PF) as [K [-> [IK PK]]]. destruct (minv_posdef 6 _ PF') as [K' [-> [IK' PK']]]. cbn [ob].
    eexists _, _, _, _; split; [reflexivity|]; split; [reflexivity|]. split; auto. split; auto. eapply inverse_anti; [exact PF'|exact PF|exact IK'|exact IK|].
    assert (LJ : le 6 J' J) by (eapply inverse_anti; [exact PN|exact PN'|exact IJ|exact IJ'|auto]).
    intros x. rewrite (focused_qf t' v' J' DJ'), (focused_qf t v J DJ). specialize (LJ (fun i => if (Nat.leb 3 i && Nat.ltb i 5)%bool then 0 else x i)).
    assert (X3 : 0 <= x 3%nat ^ 2) by apply pow2_ge_0. assert (X4 : 0 <= x 4%nat ^ 2) by apply pow2_ge_0. assert (Kf := gg_kf g G).
    destruct (grow_etas t t' W) as (_ & _ & Ge & _). destruct VG as [VGa _]. destruct (VGa 2%nat ltac:(lia)) as [Ga _].
    assert (E3 := sq_le_div _ _ (tan (g_ta g)) (grow_scal _ _ (g_kf g) Kf Ge)). assert (E4 := sq_le_div _ _ 1 (grow_scal _ _ (g_kf g) Kf Ga)).
    rewrite (Rmult_comm (g_kf g) (v_alpha v' 2%nat)), (Rmult_comm (g_kf g) (v_alpha v 2%nat)).
    assert (Y3 := Rmult_le_compat_r _ _ _ X3 E3). assert (Y4 := Rmult_le_compat_r _ _ _ X4 E4). lra.
Qed.
End Pair.

(** What the sample mosaic adds to the inverse of the resolution matrix. *)
Definition mosaic_term (t : tas) (q : R) : mat :=
  match s_mosaic t with
  | None => diag []
  | Some m => diag [0; q ^ 2 * (m * CONVERT1) ^ 2; q ^ 2 * (match s_vmosaic t with Some x => x * CONVERT1 | None => m * CONVERT1 end) ^ 2; 0]
  end.
Lemma diag_nil i j : diag [] i j = 0.
Proof. unfold diag. destruct (Nat.eqb i j); auto. now destruct i. Qed.
Lemma mosaic_nonneg t q x : 0 <= qf 4 (mosaic_term t q) x.
Proof.
  unfold mosaic_term. destruct (s_mosaic t); rewrite qf_diag; apply sum_nonneg; intros i L; apply Rmult_le_pos; try apply pow2_ge_0.
  - do 4 (destruct i as [|i]; [cbn [nth]; try lra; apply Rmult_le_pos; apply pow2_ge_0|]). lia.
  - destruct i; simpl; lra.
Qed.
Lemma mosaic_symm t q : symm 4 (mosaic_term t q).
Proof. unfold mosaic_term. destruct (s_mosaic t); apply symm_diag. Qed.
(** The resolution matrix is the inverse of the covariance of (ki, kf) projected on Q and energy, plus the mosaic. *)
Lemma at_spec t v L0 L1 L2 L3 Lm g sh n N HG : usable t n -> vars_ok v -> good_geom g -> posdef 3 sh -> L0 <> 0 -> L1 <> 0 -> L2 <> 0 -> L3 <> 0 -> Lm <> 0 -> x_tau (t_ana t) / 2 < g_kf g ->
  Ninv t v (L0, L1, L2, L3) g sh = Some (N, HG) ->
  exists r M, resolution_at t v (L0, L1, L2, L3, Lm) g sh = Some (r, M) /\ posdef 4 (addm (Minv g N) (mosaic_term t (g_q g))) /\ inverse 4 (addm (Minv g N) (mosaic_term t (g_q g))) M.
Proof.
  intros U V G S N0 N1 N2 N3 Nm K EN. destruct (at_ok t v L0 L1 L2 L3 Lm g sh n U V G S N0 N1 N2 N3 Nm K) as (r & M & ER & _ & _).
  destruct (Ninv_ok t v L0 L1 L2 L3 g sh n U V G S N0 N1 N2 N3) as (N' & HG' & EN' & PN & _). assert (N' = N) by congruence. subst N'. clear EN'.
  assert (PMi : posdef 4 (Minv g N)) by (apply posdef_congr; auto; now apply rank_B).
  assert (PT := posdef_add_nonneg 4 _ _ PMi (mosaic_symm t (g_q g)) (mosaic_nonneg t (g_q g))).
  exists r, M. split; auto. split; auto. unfold resolution_at in ER. destruct (minv 13 _); [|discriminate]. cbn [ob] in ER. rewrite EN in ER. cbn [ob] in ER.
  destruct (minv 4 (Minv g N)) as [M0|] eqn:E0; [|discriminate]. cbn [ob] in ER. destruct (prefactor t v L0 Lm g HG M0) as [r0|]; [|discriminate]. cbn [ob] in ER.
  destruct (with_mosaic t (g_q g) (Minv g N) M0 r0) as [[r1 M1]|] eqn:EM; [|discriminate]. cbn [ob] in ER.
  assert (M = M1) by (destruct (t_thickness t); [destruct (t_Q t)|]; injection ER; auto). subst M1. clear ER.
  unfold with_mosaic in EM. unfold mosaic_term in *. destruct (s_mosaic t) as [mm|].
  - destruct (minv 4 (addm _ _)) as [M2|] eqn:E2; [|discriminate]. cbn [ob] in EM. assert (M2 = M) by (injection EM; auto). subst M2. now apply minv_inverse.
  - injection EM as _ <-. apply minv_inverse in E0. assert (X : eqm 4 4 (addm (Minv g N) (diag [])) (Minv g N)) by (intros i j _ _; unfold addm; rewrite diag_nil; ring).
    destruct E0 as [A B]. split; [apply eqm_trans with (mul 4 (Minv g N) M0); auto; apply mul_ext; auto; apply eqm_refl|apply eqm_trans with (mul 4 M0 (Minv g N)); auto; apply mul_ext; auto; apply eqm_refl].
Qed.
Lemma le_mosaic t t' q : wider t t' -> le 4 (mosaic_term t q) (mosaic_term t' q).
Proof.
  intros [] . unfold mosaic_term. assert (Z : forall T x, qf 4 (mosaic_term T q) x >= 0) by (intros; apply Rle_ge, mosaic_nonneg).
  assert (Q : 0 <= q ^ 2) by apply pow2_ge_0. assert (C : 0 <= CONVERT1 ^ 2) by apply pow2_ge_0.
  assert (X : forall a b, a ^ 2 <= b ^ 2 -> q ^ 2 * (a * CONVERT1) ^ 2 <= q ^ 2 * (b * CONVERT1) ^ 2) by (intros; rewrite !Rpow_mult_distr; apply Rmult_le_compat_l; auto; apply Rmult_le_compat_r; auto).
  destruct (s_mosaic t) as [a|] eqn:Ea.
  - destruct (s_mosaic t') as [b|]; [|contradiction]. destruct wd_mosaic0 as [H1 H2]. apply sum_diag_le; auto. f2; try lra; auto. destruct (s_vmosaic t), (s_vmosaic t'); try contradiction; auto.
  - intros x. rewrite (qf_diag 4 []). rewrite sum_zero by (intros i _; destruct i; simpl; ring). specialize (Z t' x). unfold mosaic_term in Z. lra.
Qed.
Lemma le_at t t' n v v' L0 L1 L2 L3 Lm g sh sh' : usable t n -> usable t' n -> wider t t' -> vars_ok v -> vars_ok v' -> vgrow v v' -> good_geom g -> posdef 3 sh -> posdef 3 sh' -> le 3 sh sh' ->
  L0 <> 0 -> L1 <> 0 -> L2 <> 0 -> L3 <> 0 -> Lm <> 0 -> x_tau (t_ana t) / 2 < g_kf g ->
  exists r M r' M', resolution_at t v (L0, L1, L2, L3, Lm) g sh = Some (r, M) /\ resolution_at t' v' (L0, L1, L2, L3, Lm) g sh' = Some (r', M') /\ le 4 M' M.
Proof.
  intros U U' W V V' VG G S S' LS N0 N1 N2 N3 Nm K.
  destruct (le_N t t' n U U' W v v' V V' VG g G sh sh' S S' LS L0 L1 L2 L3 N0 N1 N2 N3) as (N & N' & HG & HG' & E & E' & PN & PN' & LN).
  assert (K' : x_tau (t_ana t') / 2 < g_kf g) by (rewrite (gx_tau _ _ (wd_ana _ _ W)); auto).
  destruct (at_spec t v L0 L1 L2 L3 Lm g sh n N HG) as (r & M & ER & P & I); auto. destruct (at_spec t' v' L0 L1 L2 L3 Lm g sh' n N' HG') as (r' & M' & ER' & P' & I'); auto.
  exists r, M, r', M'. split; auto. split; auto. eapply inverse_anti; [exact P|exact P'|exact I|exact I'|]. apply le_add; [now apply le_congr|now apply le_mosaic].
Qed.
Lemma le_sshapes t t' n i : wider t t' -> sample_ok t n -> sample_ok t' n -> (i < n)%nat -> exists sh sh', sshapes t i = Some sh /\ sshapes t' i = Some sh' /\ posdef 3 sh /\ posdef 3 sh' /\ le 3 sh sh'.
Proof.
  intros W O O' L. destruct (sshapes_ok t n i O L) as [sh [E P]]. destruct (sshapes_ok t' n i O' L) as [sh' [E' P']]. exists sh, sh'. split; auto. split; auto. split; auto. split; auto.
  destruct W. assert (Ef : factor t' = factor t) by (unfold factor; now rewrite wd_type0). assert (Fp := factor_pos t). unfold sshapes in E, E'. rewrite Ef in E'.
  assert (Sc : forall m m', le 3 m m' -> le 3 (fun i j => m i j / factor t) (fun i j => m' i j / factor t)).
  { intros m m' H x. assert (Q : forall m, qf 3 (fun i j => m i j / factor t) x = qf 3 m x * / factor t). { intros m0. unfold qf. rewrite <- sum_scal_r. apply sum_ext. intros a _. rewrite <- sum_scal_r. apply sum_ext. intros b _. unfold Rdiv. ring. }
    rewrite !Q. apply Rmult_le_compat_r; [left; now apply Rinv_0_lt_compat|apply H]. }
  assert (Dflt : forall o p, grow_shape o p ->
     match o with None => Some idm | Some (S2 m) => Some (fun i j => m i j / factor t) | Some (S3 l) => match nth_error l i with Some m => Some (fun i j => m i j / factor t) | None => None end end = Some sh ->
     match p with None => Some idm | Some (S2 m) => Some (fun i j => m i j / factor t) | Some (S3 l) => match nth_error l i with Some m => Some (fun i j => m i j / factor t) | None => None end end = Some sh' -> le 3 sh sh').
  { intros [[m|l]|] [[m'|l']|] H X X'; simpl in H; try contradiction.
    - injection X as <-. injection X' as <-. now apply Sc.
    - clear - H X X' Sc. revert i X X'. induction H as [|a b l l' Hab F IH]; intros i X X'; [now destruct i|]. destruct i as [|i]; simpl in *; [|now apply (IH i)]. injection X as <-. injection X' as <-. now apply Sc.
    - injection X as <-. injection X' as <-. apply le_refl. }
  destruct (s_width t) as [w|], (s_width t') as [w'|]; simpl in wd_width0; try contradiction; [|now apply (Dflt (s_shape t) (s_shape t'))].
  destruct (s_depth t) as [d|], (s_depth t') as [d'|]; simpl in wd_depth0; try contradiction; [|now apply (Dflt (s_shape t) (s_shape t'))].
  destruct (s_height t) as [h|], (s_height t') as [h'|]; simpl in wd_height0; try contradiction; [|now apply (Dflt (s_shape t) (s_shape t'))].
  injection E as <-. injection E' as <-. assert (X : forall a b, grow a b -> a ^ 2 / factor t <= b ^ 2 / factor t). { intros a b H. destruct (grow_sq a b H). unfold Rdiv. apply Rmult_le_compat_r; [left; now apply Rinv_0_lt_compat|auto]. }
  apply sum_diag_le; auto. f2; now apply X.
Qed.
Lemma guided_grow k a b i : 0 < k -> grow (a i) (b i) -> grow (guided k a i) (guided k b i).
Proof.
  intros K H. unfold guided. destruct (Rlt_dec (a i) 0) as [A|A], (Rlt_dec (b i) 0) as [B|B]; try (exfalso; destruct H; lra); auto.
  assert (C : 0 < / 10 * 60 * (2 * PI / k) / (427 / 1000) / sqrt 3).
  { assert (P := PI_RGT_0). assert (0 < sqrt 3) by (apply sqrt_lt_R0; lra). assert (0 < 2 * PI / k) by (apply Rdiv_lt_0_compat; lra). apply Rdiv_lt_0_compat; auto. apply Rdiv_lt_0_compat; [|lra]. apply Rmult_lt_0_compat; lra. }
  set (c := / 10 * 60 * (2 * PI / k) / (427 / 1000) / sqrt 3) in *. replace (- a i * / 10 * 60 * (2 * PI / k) / (427 / 1000) / sqrt 3) with (- a i * c) by (unfold c, Rdiv; ring). replace (- b i * / 10 * 60 * (2 * PI / k) / (427 / 1000) / sqrt 3) with (- b i * c) by (unfold c, Rdiv; ring).
  left. destruct H; [lra|]. split; [apply Rmult_lt_0_compat; lra|]. apply Rmult_le_compat_r; lra.
Qed.
Lemma en_eq t t' w : wider t t' -> energies t' w = energies t w.
Proof. intros []. unfold energies. now rewrite wd_infin0, wd_efixed0. Qed.
Lemma next_grow t t' v v' w : wider t t' -> 0 < fst (energies t w) -> vgrow v v' -> vgrow (next t v w) (next t' v' w).
Proof.
  intros W E (A & B & C & D & F). unfold vgrow, next. cbn [v_alpha v_beta v_mrh v_mrv v_arh v_arv]. rewrite (gx_dir _ _ (wd_mono _ _ W)), (gx_dir _ _ (wd_ana _ _ W)), B, C, D, F.
  split; [|auto]. intros i L. unfold kin. rewrite (en_eq t t') by auto. assert (K := k_pos _ E). split; apply guided_grow; auto; now apply A.
Qed.
Lemma start_grow t t' : wider t t' -> vgrow (start t) (start t').
Proof.
  intros []. destruct wd_mono0, wd_ana0. unfold vgrow, start. cbn [v_alpha v_beta v_mrh v_mrv v_arh v_arv]. rewrite gx_rv0, gx_rh0, gx_rv1, gx_rh1. split; [|auto]. unfold horifoc. rewrite wd_horifoc0. assert (C := C1_pos).
  intros i L. split; [|apply grow_scal; auto]. destruct (_ && _)%bool; [apply grow_scal|]; try (apply grow_scal; auto).
  apply sqrt_lt_R0. assert (0 < ln 2) by (rewrite <- ln_1; apply ln_increasing; lra). lra.
Qed.

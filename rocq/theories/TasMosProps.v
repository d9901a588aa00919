(** C62: sample mosaic and monitor in the prefactor. *)
From Coq Require Import String List ZArith Reals Lra Lia Psatz Bool.
From Verif Require Import Base MatInv TasModel TasProof TasMirror TasWide TasVar TasCase TasProps TasRaysProps TasMoreProps.
Import ListNotations.
Local Open Scope R_scope.

Definition det2 (a b c d : R) : R := a * d - b * c.
Definition det3 (a b c d e f g h i : R) : R := a * det2 e f h i - b * det2 d f g i + c * det2 d e g h.
(** The determinant of the first four rows and columns, by expansion along the first row. *)
Definition det4 (m : mat) : R :=
  let r i := m (S i) in
  m 0%nat 0%nat * det3 (r 0%nat 1%nat) (r 0%nat 2%nat) (r 0%nat 3%nat) (r 1%nat 1%nat) (r 1%nat 2%nat) (r 1%nat 3%nat) (r 2%nat 1%nat) (r 2%nat 2%nat) (r 2%nat 3%nat) -
  m 0%nat 1%nat * det3 (r 0%nat 0%nat) (r 0%nat 2%nat) (r 0%nat 3%nat) (r 1%nat 0%nat) (r 1%nat 2%nat) (r 1%nat 3%nat) (r 2%nat 0%nat) (r 2%nat 2%nat) (r 2%nat 3%nat) +
  m 0%nat 2%nat * det3 (r 0%nat 0%nat) (r 0%nat 1%nat) (r 0%nat 3%nat) (r 1%nat 0%nat) (r 1%nat 1%nat) (r 1%nat 3%nat) (r 2%nat 0%nat) (r 2%nat 1%nat) (r 2%nat 3%nat) -
  m 0%nat 3%nat * det3 (r 0%nat 0%nat) (r 0%nat 1%nat) (r 0%nat 2%nat) (r 1%nat 0%nat) (r 1%nat 1%nat) (r 1%nat 2%nat) (r 2%nat 0%nat) (r 2%nat 1%nat) (r 2%nat 2%nat).
Lemma det4_mul A B : det4 (mul 4 A B) = det4 A * det4 B.
Proof. unfold det4, det3, det2, mul. cbn [sum]. ring. Qed.
Lemma det4_ext A B : eqm 4 4 A B -> det4 A = det4 B.
Proof. intros H. unfold det4. rewrite !H by lia. reflexivity. Qed.
Lemma detm_det4 M d : detm 4 M = Some d -> d = det4 M.
Proof.
  assert (D1 : forall X d, detm 1 X = Some d -> d = X 0%nat 0%nat) by (intros X e; cbn [detm]; destruct (Req_EM_T _ 0); [discriminate|intros E; injection E as <-; ring]).
  assert (D2 : forall X d, detm 2 X = Some d -> d = det2 (X 0%nat 0%nat) (X 0%nat 1%nat) (X 1%nat 0%nat) (X 1%nat 1%nat)).
  { intros X e. cbn [detm]. destruct (Req_EM_T _ 0); [discriminate|]. destruct (detm 1 (schur X)) as [f|] eqn:E; cbn [detm] in E; rewrite E; [|discriminate]. apply D1 in E. intros Y. injection Y as <-. rewrite E. unfold schur, det2. field. auto. }
  assert (D3 : forall X d, detm 3 X = Some d -> d = det3 (X 0%nat 0%nat) (X 0%nat 1%nat) (X 0%nat 2%nat) (X 1%nat 0%nat) (X 1%nat 1%nat) (X 1%nat 2%nat) (X 2%nat 0%nat) (X 2%nat 1%nat) (X 2%nat 2%nat)).
  { intros X e E. change (detm 3 X) with (if Req_EM_T (X 0%nat 0%nat) 0 then None else match detm 2 (schur X) with None => None | Some d => Some (X 0%nat 0%nat * d) end) in E.
    destruct (Req_EM_T _ 0); [discriminate|]. destruct (detm 2 (schur X)) as [f|] eqn:E2; [|discriminate]. apply D2 in E2. injection E as <-. rewrite E2. unfold schur, det3, det2. field. auto. }
  intros E. change (detm 4 M) with (if Req_EM_T (M 0%nat 0%nat) 0 then None else match detm 3 (schur M) with None => None | Some d => Some (M 0%nat 0%nat * d) end) in E.
  destruct (Req_EM_T _ 0); [discriminate|]. destruct (detm 3 (schur M)) as [f|] eqn:E3; [|discriminate]. apply D3 in E3. injection E as <-. rewrite E3. unfold schur, det4, det3, det2. field. auto.
Qed.
Lemma det4_pos M : posdef 4 M -> 0 < det4 M.
Proof. intros H. destruct (posdef_detm 4 M H) as [d [E P]]. apply detm_det4 in E. now subst d. Qed.

(** The same instrument with a perfect crystal as its sample. *)
Definition perfect (t : tas) : tas :=
  mkTas (t_method t) (t_moncor t) (t_hcol t) (t_vcol t) (t_mono t) (t_ana t) (t_thickness t) (t_Q t) (t_infin t) (t_efixed t)
    (t_arms t) (t_horifoc t) (t_guide t) (t_monitor t) (t_detector t) (s_dir t) None (s_vmosaic t) (s_type t) (s_width t) (s_height t) (s_depth t) (s_shape t).
Lemma perfect_usable t n : usable t n -> usable (perfect t) n.
Proof. auto. Qed.
Lemma perfect_reachable t p : reachable t p -> reachable (perfect t) p.
Proof. auto. Qed.

Lemma pow2_1 x : x ^ 2 = x * (x * 1). Proof. reflexivity. Qed.
Lemma level_update M0 M Mi p s : inverse 4 Mi M0 -> inverse 4 (addm Mi (diag [0; p; s; 0])) M ->
  (forall i, (i < 4)%nat -> i <> 2%nat -> M0 i 2%nat = 0 /\ M0 2%nat i = 0) ->
  det4 M0 = det4 M * ((1 + p * M0 1%nat 1%nat) * (1 + s * M0 2%nat 2%nat)).
Proof.
  intros [I1 I2] [J1 J2] Z. set (D := diag [0; p; s; 0]) in *.
  assert (E : eqm 4 4 M0 (mul 4 M (addm idm (mul 4 D M0)))).
  { apply eqm_trans with (mul 4 (mul 4 M (addm Mi D)) M0); [apply eqm_trans with (mul 4 idm M0); [apply eqm_sym, mul_id_l|apply mul_ext; [apply eqm_sym; exact J2|apply eqm_refl]]|].
    apply eqm_trans with (mul 4 M (mul 4 (addm Mi D) M0)); [apply mul_assoc|]. apply mul_ext; [apply eqm_refl|]. intros i j Li Lj.
    transitivity (mul 4 Mi M0 i j + mul 4 D M0 i j); [unfold mul, addm; cbn [sum]; ring|]. rewrite I1 by auto. reflexivity. }
  rewrite (det4_ext _ _ E), det4_mul. f_equal. unfold det4, det3, det2, addm, mul, D, diag, idm. cbn [sum Nat.eqb nth].
  destruct (Z 0%nat ltac:(lia) ltac:(lia)) as [-> ->], (Z 1%nat ltac:(lia) ltac:(lia)) as [-> ->], (Z 3%nat ltac:(lia) ltac:(lia)) as [-> ->]. ring.
Qed.
(** A mosaic sample widens the resolution; the prefactor should then go down as the square root of the determinant of the resolution
    matrix does, and it does so only if the two mosaics or the two widths across Q agree: each mosaic is used with the width of the
    other direction. *)
Theorem C62_sample_mosaic t q w m : usable t 1 -> reachable t (q, w) -> level t -> s_mosaic t = Some m ->
  let mv := opt m (s_vmosaic t) in
  exists r M r0 M0, calc_in_Q t [(q, w)] = Ok [Some (r, M)] /\ calc_in_Q (perfect t) [(q, w)] = Ok [Some (r0, M0)] /\
    (r / r0) ^ 2 * ((1 + (q * (m * minute)) ^ 2 * M0 2%nat 2%nat) * (1 + (q * (mv * minute)) ^ 2 * M0 1%nat 1%nat)) = 1 /\
    det4 M / det4 M0 * ((1 + (q * (m * minute)) ^ 2 * M0 1%nat 1%nat) * (1 + (q * (mv * minute)) ^ 2 * M0 2%nat 2%nat)) = 1 /\
    ((r / r0) ^ 2 = det4 M / det4 M0 <-> m ^ 2 = mv ^ 2 \/ M0 1%nat 1%nat = M0 2%nat 2%nat).
Proof.
  intros U R Lv Em mv.
  destruct (lengths_ok t 1 U) as [[[[[L0 L1] L2] L3] Lm] [EL (N0 & N1 & N2 & N3 & Nm)]].
  destruct (single t q w L0 L1 L2 L3 Lm U R EL) as (sh & Es & Ps & Ec). destruct (single (perfect t) q w L0 L1 L2 L3 Lm U R EL) as (sh' & Es' & _ & Ec0). change (sshapes (perfect t) 0) with (sshapes t 0) in Es'. assert (sh' = sh) by congruence. subst sh'. clear Es'.
  set (v := next t (start t) w) in *. set (g := geom_of t q w) in *. change (next (perfect t) (start (perfect t)) w) with v in Ec0. change (geom_of (perfect t) q w) with g in Ec0.
  assert (V : vars_ok v) by (apply (next_ok t (start t) w 1 U (proj1 R)); now apply start_ok with 1%nat). assert (G : good_geom g) by (now apply geom_ok with 1%nat).
  assert (K : x_tau (t_ana t) / 2 < g_kf g) by (destruct R as (_ & _ & _ & Ka & _); unfold g, geom_of; simpl; lra).
  destruct (Ninv_ok t v L0 L1 L2 L3 g sh 1 U V G Ps N0 N1 N2 N3) as (N & HG & EN & PN & _).
  destruct (at_ok t v L0 L1 L2 L3 Lm g sh 1 U V G Ps N0 N1 N2 N3 Nm K) as (r & M & ER & Pr & PM).
  destruct (at_ok (perfect t) v L0 L1 L2 L3 Lm g sh 1 U V G Ps N0 N1 N2 N3 Nm K) as (r0 & M0 & ER0 & Pr0 & PM0).
  destruct (at_spec t v L0 L1 L2 L3 Lm g sh 1 N HG U V G Ps N0 N1 N2 N3 Nm K EN) as (r' & M' & ER' & _ & IM). assert (M' = M) by congruence. subst M'. clear r' ER'.
  destruct (at_spec (perfect t) v L0 L1 L2 L3 Lm g sh 1 N HG U V G Ps N0 N1 N2 N3 Nm K EN) as (r' & M' & ER' & _ & IM0). assert (M' = M0) by congruence. subst M'. clear r' ER'.
  assert (Z0 : forall i, (i < 4)%nat -> i <> 2%nat -> M0 i 2%nat = 0 /\ M0 2%nat i = 0).
  { destruct (zM (perfect t) v (L0, L1, L2, L3) g sh N HG M0 (fun P => level_flat t 0 sh Lv P Es) EN IM0) as [_ Z].
    intros i Li Ni. assert (A := Z i 2%nat Li ltac:(lia)). assert (B := Z 2%nat i ltac:(lia) Li). unfold conj_by, z4, sg in A, B. do 4 (destruct i as [|i]; [try lia; cbn [nth] in A, B; lra|]). lia. }
  exists r, M, r0, M0. split; [rewrite Ec, ER; reflexivity|]. split; [rewrite Ec0, ER0; reflexivity|].
  (* the prefactor *)
  assert (Q : r = r0 / sqrt ((1 + (q * (m * CONVERT1)) ^ 2 * M0 2%nat 2%nat) * (1 + (q * (mv * CONVERT1)) ^ 2 * M0 1%nat 1%nat))).
  { unfold resolution_at in ER, ER0. change (Sinv (perfect t) g sh) with (Sinv t g sh) in ER0. destruct (minv 13 (Sinv t g sh)) as [Sx|]; [|discriminate]. cbn [ob] in ER, ER0.
    change (Ninv (perfect t) v (L0, L1, L2, L3) g sh) with (Ninv t v (L0, L1, L2, L3) g sh) in ER0. rewrite EN in ER, ER0. cbn [ob] in ER, ER0. cbv zeta in ER, ER0.
    destruct (minv 4 (Minv g N)) as [M1|]; [|discriminate]. cbn [ob] in ER, ER0. change (prefactor (perfect t) v L0 Lm g HG M1) with (prefactor t v L0 Lm g HG M1) in ER0. destruct (prefactor t v L0 Lm g HG M1) as [p|]; [|discriminate]. cbn [ob] in ER, ER0.
    unfold with_mosaic in ER, ER0. rewrite Em in ER. change (s_mosaic (perfect t)) with (@None Rdefinitions.R) in ER0. cbv zeta in ER. destruct (minv 4 (addm _ _)) as [M2|]; [|discriminate]. cbn [ob] in ER, ER0. change (g_q g) with q in ER.
    replace (match s_vmosaic t with Some x => x * CONVERT1 | None => m * CONVERT1 end) with (mv * CONVERT1) in ER by (unfold mv, opt; destruct (s_vmosaic t); reflexivity).
    change (t_thickness (perfect t)) with (t_thickness t) in ER0. change (t_Q (perfect t)) with (t_Q t) in ER0.
    destruct (t_thickness t) as [a|], (t_Q t) as [b|]; injection ER as <- <-; injection ER0 as <- <-; try reflexivity. unfold Rdiv. change (reflectivity (perfect t) v g a b) with (reflectivity t v g a b). rewrite !(pow2_1 (q * _)). ring. }
  rewrite minute_eq in *. set (a := (q * (m * CONVERT1)) ^ 2) in *. set (b := (q * (mv * CONVERT1)) ^ 2) in *.
  assert (A0 : 0 <= a) by apply pow2_ge_0. assert (B0 : 0 <= b) by apply pow2_ge_0.
  assert (M1 : 0 < M0 1%nat 1%nat) by (apply (posdef_entry 4); auto; lia). assert (M2 : 0 < M0 2%nat 2%nat) by (apply (posdef_entry 4); auto; lia).
  assert (P1 : 0 < 1 + a * M0 2%nat 2%nat) by (assert (0 <= a * M0 2%nat 2%nat) by (apply Rmult_le_pos; lra); lra). assert (P2 : 0 < 1 + b * M0 1%nat 1%nat) by (assert (0 <= b * M0 1%nat 1%nat) by (apply Rmult_le_pos; lra); lra).
  assert (P3 : 0 < 1 + a * M0 1%nat 1%nat) by (assert (0 <= a * M0 1%nat 1%nat) by (apply Rmult_le_pos; lra); lra). assert (P4 : 0 < 1 + b * M0 2%nat 2%nat) by (assert (0 <= b * M0 2%nat 2%nat) by (apply Rmult_le_pos; lra); lra).
  set (X := (1 + a * M0 2%nat 2%nat) * (1 + b * M0 1%nat 1%nat)) in *. set (Y := (1 + a * M0 1%nat 1%nat) * (1 + b * M0 2%nat 2%nat)).
  assert (PX : 0 < X) by (now apply Rmult_lt_0_compat). assert (PY : 0 < Y) by (now apply Rmult_lt_0_compat).
  assert (E1 : (r / r0) ^ 2 * X = 1). { rewrite Q. assert (0 < sqrt X) by (now apply sqrt_lt_R0). replace (r0 / sqrt X / r0) with (/ sqrt X) by (field; split; lra). rewrite <- (sqrt_sqrt X) at 2 by lra. field. lra. }
  assert (D0 := det4_pos M0 PM0). assert (DM := det4_pos M PM).
  assert (E2 : det4 M / det4 M0 * Y = 1).
  { assert (Lu : det4 M0 = det4 M * Y).
    { apply (level_update M0 M (Minv g N) a b); auto.
      - destruct IM0 as [I1 I2]. assert (Ez : eqm 4 4 (addm (Minv g N) (mosaic_term (perfect t) (g_q g))) (Minv g N)). { intros i j Li Lj. unfold addm, mosaic_term. cbn [s_mosaic perfect]. unfold diag. destruct (Nat.eqb i j); [do 4 (destruct i as [|i]; [cbn; ring|])|ring]. lia. }
        split; [apply eqm_trans with (mul 4 (addm (Minv g N) (mosaic_term (perfect t) (g_q g))) M0)|apply eqm_trans with (mul 4 M0 (addm (Minv g N) (mosaic_term (perfect t) (g_q g))))]; auto; apply mul_ext; try apply eqm_refl; now apply eqm_sym.
      - replace (diag [0; a; b; 0]) with (mosaic_term t (g_q g)); auto. unfold mosaic_term. rewrite Em. change (g_q g) with q. unfold a, b, mv, opt. destruct (s_vmosaic t); f_equal; repeat (f_equal; try ring). }
    rewrite Lu. field. split; lra. }
  split; [exact E1|]. split; [exact E2|].
  assert (C := C1_pos). assert (Qp : 0 < q) by (destruct R as (_ & _ & _ & _ & R5); assert (R6 := Rabs_pos (kin t w - kfin t w)); lra).
  assert (S1 : (r / r0) ^ 2 = det4 M / det4 M0 <-> X = Y).
  { split; intros H. - rewrite H in E1. assert (Nz : det4 M / det4 M0 <> 0) by (intros Zz; rewrite Zz in E2; lra). apply (Rmult_eq_reg_l (det4 M / det4 M0)); lra. - rewrite H in E1. apply (Rmult_eq_reg_r Y); lra. }
  rewrite S1. assert (S2 : X - Y = (a - b) * (M0 2%nat 2%nat - M0 1%nat 1%nat)) by (unfold X, Y; ring). assert (S3 : a - b = (q * CONVERT1) ^ 2 * (m ^ 2 - mv ^ 2)) by (unfold a, b; ring).
  assert (0 < (q * CONVERT1) ^ 2) by (apply pow_lt; now apply Rmult_lt_0_compat).
  split; intros H'.
  - assert (Zz : (a - b) * (M0 2%nat 2%nat - M0 1%nat 1%nat) = 0) by lra. apply Rmult_integral in Zz. destruct Zz as [Zz|Zz]; [left|right; lra]. rewrite S3 in Zz. apply Rmult_integral in Zz. destruct Zz; lra.
  - assert (Zz : (a - b) * (M0 2%nat 2%nat - M0 1%nat 1%nat) = 0); [|lra]. destruct H' as [H'|H']; [rewrite S3, H'|rewrite H']; ring.
Qed.
Print Assumptions C62_sample_mosaic.
Example C62_sample_mosaic_ex : let t := case 1 None None (Some 10) None in
  usable t 1 /\ reachable t (3, 2072 / 1000 * (3 * 3 - 9)) /\ level t /\ s_mosaic t = Some 10 /\ 10 ^ 2 <> opt 10 (s_vmosaic t) ^ 2.
Proof.
  intros t. split; [apply case_usable; auto; lra|]. split; [apply case_reach; try lra; rewrite Rabs_pos_eq by lra; lra|]. split; [intros H; discriminate H|]. split; [reflexivity|]. simpl. lra.
Qed.

(** * The monitor *)
(** The same instrument with a monitor of another width. *)
Definition with_monitor (m : option window) (t : tas) : tas :=
  mkTas (t_method t) (t_moncor t) (t_hcol t) (t_vcol t) (t_mono t) (t_ana t) (t_thickness t) (t_Q t) (t_infin t) (t_efixed t)
    (t_arms t) (t_horifoc t) (t_guide t) m (t_detector t) (s_dir t) (s_mosaic t) (s_vmosaic t) (s_type t) (s_width t) (s_height t) (s_depth t) (s_shape t).
Lemma isolate n k K K' N N' : (k < n)%nat -> inverse n K N -> inverse n K' N' ->
  (forall i, (i < n)%nat -> i <> k -> K i k = 0 /\ K k i = 0 /\ K' i k = 0 /\ K' k i = 0) ->
  (forall i j, (i < n)%nat -> (j < n)%nat -> (i <> k \/ j <> k) -> K i j = K' i j) ->
  forall i j, (i < n)%nat -> (j < n)%nat -> i <> k -> j <> k -> N i j = N' i j.
Proof.
  intros Lk [I1 I2] [J1 J2] Z E.
  assert (Off : forall A B, eqm n n (mul n A B) idm -> (forall i, (i < n)%nat -> i <> k -> A i k = 0 /\ A k i = 0) -> forall j, (j < n)%nat -> j <> k -> B k j = 0).
  { intros A B H Y j Lj Nj. assert (H1 := H k j Lk Lj). assert (H2 := H k k Lk Lk). unfold mul in H1, H2.
    rewrite (sum_ext n _ (fun l => idm k l * (A k k * B k j))) in H1; [|intros l Ll; unfold idm; destruct (Nat.eqb_spec k l) as [->|Nl]; [ring|rewrite (proj2 (Y l Ll ltac:(auto))); ring]].
    rewrite (sum_ext n _ (fun l => idm k l * (A k k * B k k))) in H2; [|intros l Ll; unfold idm; destruct (Nat.eqb_spec k l) as [->|Nl]; [ring|rewrite (proj2 (Y l Ll ltac:(auto))); ring]].
    rewrite sum_delta in H1, H2 by auto. unfold idm in H1, H2. rewrite Nat.eqb_refl in H2. destruct (Nat.eqb_spec k j); [congruence|]. destruct (Rmult_integral _ _ H1) as [X|X]; auto. rewrite X in H2. lra. }
  assert (OffR : forall A B, eqm n n (mul n B A) idm -> (forall i, (i < n)%nat -> i <> k -> A i k = 0 /\ A k i = 0) -> forall j, (j < n)%nat -> j <> k -> B j k = 0).
  { intros A B H Y j Lj Nj. assert (H1 := H j k Lj Lk). assert (H2 := H k k Lk Lk). unfold mul in H1, H2.
    rewrite (sum_ext n _ (fun l => idm k l * (B j k * A k k))) in H1; [|intros l Ll; unfold idm; destruct (Nat.eqb_spec k l) as [->|Nl]; [ring|rewrite (proj1 (Y l Ll ltac:(auto))); ring]].
    rewrite (sum_ext n _ (fun l => idm k l * (B k k * A k k))) in H2; [|intros l Ll; unfold idm; destruct (Nat.eqb_spec k l) as [->|Nl]; [ring|rewrite (proj1 (Y l Ll ltac:(auto))); ring]].
    rewrite sum_delta in H1, H2 by auto. unfold idm in H1, H2. rewrite Nat.eqb_refl in H2. destruct (Nat.eqb_spec j k); [congruence|]. destruct (Rmult_integral _ _ H1) as [X|X]; auto. rewrite X in H2. lra. }
  assert (N'k := Off K' N' J1 (fun i Li Ni => conj (proj1 (proj2 (proj2 (Z i Li Ni)))) (proj2 (proj2 (proj2 (Z i Li Ni)))))).
  assert (Nk := OffR K N I2 (fun i Li Ni => conj (proj1 (Z i Li Ni)) (proj1 (proj2 (Z i Li Ni))))).
  intros i j Li Lj Ni Nj.
  (* N K N' = N' and N K' N' = N; the difference is N_ik (K - K')_kk N'_kj = 0 *)
  assert (A1 : mul n (mul n N K) N' i j = N' i j) by (transitivity (mul n idm N' i j); [apply (mul_ext n n n); auto; apply eqm_refl|now apply (mul_id_l n n)]).
  assert (A2 : mul n N (mul n K' N') i j = N i j) by (transitivity (mul n N idm i j); [apply (mul_ext n n n); auto; apply eqm_refl|now apply (mul_id_r n n)]).
  rewrite <- A1, <- A2. rewrite <- (mul_assoc n n n n N K' N' i j) by auto. apply (sum_ext n (fun l => mul n N K' i l * N' l j) (fun l => mul n N K i l * N' l j)).
  intros l Ll. destruct (Nat.eq_dec l k) as [->|Nl]; [rewrite N'k by auto; ring|]. f_equal. apply sum_ext. intros m Lm. rewrite E; auto.
Qed.
Lemma blk_entry n A B i j : blk n A B i j = if (Nat.ltb i n && Nat.ltb j n)%bool then A i j else if (Nat.leb n i && Nat.leb n j)%bool then B (i - n)%nat (j - n)%nat else 0.
Proof. reflexivity. Qed.
(** The flux on the monitor does not depend on the width of a monitor whose height is given. *)
Lemma Rmon_width t a b h v L0 Lm g n : usable (with_monitor (Some (mkW (Some a) (Some h))) t) n -> usable (with_monitor (Some (mkW (Some b) (Some h))) t) n ->
  Rmon (with_monitor (Some (mkW (Some a) (Some h))) t) v L0 Lm g = Rmon (with_monitor (Some (mkW (Some b) (Some h))) t) v L0 Lm g.
Proof.
  intros Ua Ub. set (ta := with_monitor _ t) in *. set (tb := with_monitor (Some (mkW (Some b) _)) t) in *. unfold Rmon.
  change (Fm tb) with (Fm ta). change (popovici tb) with (popovici ta). cbv zeta. set (tt := mx [[- 1 / (2 * L0); _; _; _; _; _; _]; _]). set (d := mx [[- 1 / L0; 0; - cos (g_tm g) / L0; _; _; _; _]; _; _; _]).
  assert (PS : forall u, usable u n -> posdef 7 (blk 2 (bshape u) (blk 3 (xshape (t_mono u)) (monitorshape u)))).
  { intros u (_ & M & _ & W1 & W2 & _). apply (posdef_blk 2 5); [now apply posdef_window|]. apply (posdef_blk 3 2); [now apply posdef_xshape|now apply posdef_monitor]. }
  change (bshape tb) with (bshape ta). change (xshape (t_mono tb)) with (xshape (t_mono ta)). set (Sa := blk 2 (bshape ta) (blk 3 (xshape (t_mono ta)) (monitorshape ta))). set (Sb := blk 2 (bshape ta) (blk 3 (xshape (t_mono ta)) (monitorshape tb))).
  destruct (minv_posdef 7 Sa (PS ta Ua)) as [sa [-> [Ia Pa]]]. destruct (minv_posdef 7 Sb (PS tb Ub)) as [sb [-> [Ib Pb]]]. cbn [ob]. destruct (popovici ta); [|reflexivity].
  assert (D : forall u i j, (i < 7)%nat -> (j < 7)%nat -> i <> j -> blk 2 (bshape ta) (blk 3 (xshape (t_mono ta)) (monitorshape (with_monitor (Some (mkW (Some u) (Some h))) t))) i j = 0).
  { intros u i j Li Lj Nij. unfold bshape. change (t_guide ta) with (t_guide t). do 7 (destruct i as [|i]; [do 7 (destruct j as [|j]; [try congruence; destruct (t_guide t); reflexivity|]); lia|]). lia. }
  assert (Dg : forall S s, posdef 7 S -> inverse 7 S s -> (forall i j, (i < 7)%nat -> (j < 7)%nat -> i <> j -> S i j = 0) -> forall i j, (i < 7)%nat -> (j < 7)%nat -> s i j = if Nat.eqb i j then / S i i else 0).
  { intros S s Pp [H1 _] H i j Li Lj. assert (X := H1 i j Li Lj). unfold mul in X. rewrite (sum_ext 7 _ (fun l => idm i l * (S i i * s i j))) in X.
    - rewrite sum_delta in X by auto. assert (P := posdef_entry 7 S i Pp Li). unfold idm in X. destruct (Nat.eqb i j); apply (Rmult_eq_reg_l (S i i)); try lra. rewrite X. field. lra.
    - intros l Ll. unfold idm. destruct (Nat.eqb_spec i l) as [->|Nl]; [ring|]. rewrite H by auto. ring. }
  assert (Ga := Dg Sa sa (PS ta Ua) Ia (D a)). assert (Gb := Dg Sb sb (PS tb Ub) Ib (D b)).
  assert (Eq : forall i, (i < 7)%nat -> i <> 5%nat -> Sa i i = Sb i i) by (intros i Li Ni; unfold Sa, Sb; do 7 (destruct i as [|i]; [try congruence; reflexivity|]); lia).
  destruct (FT 7 2 (Fm ta) tt (posdef_F2 ta n Ua)) as [F3 F4].
  destruct (minv_posdef 7 _ (posdef_add_nonneg 7 _ _ Pa F3 F4)) as [ka [-> [Ka _]]]. destruct (minv_posdef 7 _ (posdef_add_nonneg 7 _ _ Pb F3 F4)) as [kb [-> [Kb _]]]. cbn [ob].
  assert (T5 : forall i, (i < 7)%nat -> mul 2 (tr tt) (mul 2 (Fm ta) tt) i 5%nat = 0 /\ mul 2 (tr tt) (mul 2 (Fm ta) tt) 5%nat i = 0).
  { intros i Li. unfold mul, tr. cbn [sum]. assert (tt 0%nat 5%nat = 0 /\ tt 1%nat 5%nat = 0) as [X Y] by (split; reflexivity). rewrite X, Y. split; ring. }
  assert (Same : forall i j, (i < 7)%nat -> (j < 7)%nat -> i <> 5%nat -> j <> 5%nat -> ka i j = kb i j).
  { apply (isolate 7 5 _ _ ka kb ltac:(lia) Ka Kb).
    - intros i Li Ni. unfold addm. destruct (T5 i Li) as [-> ->]. rewrite !Ga, !Gb by lia. destruct (Nat.eqb_spec i 5); [congruence|]. destruct (Nat.eqb_spec 5 i); [congruence|]. lra.
    - intros i j Li Lj Nij. unfold addm. f_equal. rewrite Ga, Gb by auto. destruct (Nat.eqb_spec i j) as [->|]; auto. rewrite Eq; auto. lia. }
  assert (Ed : eqm 4 4 (mul 7 d (mul 7 ka (tr d))) (mul 7 d (mul 7 kb (tr d)))).
  { intros i j Li Lj. assert (D5 : forall i, (i < 4)%nat -> d i 5%nat = 0) by (intros k Lk; unfold d, mx; do 4 (destruct k as [|k]; [reflexivity|]); lia).
    apply sum_ext. intros l Ll. destruct (Nat.eq_dec l 5) as [->|Nl]; [rewrite D5 by auto; ring|]. f_equal. apply sum_ext. intros m Lm'. unfold tr. destruct (Nat.eq_dec m 5) as [->|Nm]; [rewrite D5 by auto; ring|]. now rewrite Same. }
  destruct (minv 4 (mul 7 d (mul 7 ka (tr d)))) as [ha|] eqn:Ea.
  - destruct (minv_ext 4 _ _ ha Ed Ea) as [hb [-> Eh]]. cbn [ob]. destruct (detm 2 (Fm ta)) as [df|]; [|reflexivity]. cbn [ob].
    rewrite (detm_ext 4 (addm ha (Gm v)) (addm hb (Gm v))); [reflexivity|]. intros i j Li Lj. unfold addm. now rewrite Eh.
  - destruct (minv 4 (mul 7 d (mul 7 kb (tr d)))) as [hb|] eqn:Eb; [|reflexivity]. destruct (minv_ext 4 _ _ hb (eqm_sym _ _ _ _ Ed) Eb) as [ha [Ea' _]]. congruence.
Qed.
Lemma Sinv_m m t g sh : Sinv (with_monitor m t) g sh = Sinv t g sh. Proof. reflexivity. Qed.
Lemma Ninv_m m t v Ls g sh : Ninv (with_monitor m t) v Ls g sh = Ninv t v Ls g sh. Proof. reflexivity. Qed.
Lemma mosaic_m m t q A B r : with_mosaic (with_monitor m t) q A B r = with_mosaic t q A B r. Proof. reflexivity. Qed.
Lemma reflect_m m t v g a b : reflectivity (with_monitor m t) v g a b = reflectivity t v g a b. Proof. reflexivity. Qed.
Lemma resolution_m t m m' v L0 L1 L2 L3 Lm g sh : (forall HG M, prefactor (with_monitor m t) v L0 Lm g HG M = prefactor (with_monitor m' t) v L0 Lm g HG M) ->
  resolution_at (with_monitor m t) v (L0, L1, L2, L3, Lm) g sh = resolution_at (with_monitor m' t) v (L0, L1, L2, L3, Lm) g sh.
Proof.
  intros H. unfold resolution_at. rewrite !Sinv_m, !Ninv_m. generalize (minv 13 (Sinv t g sh)). intros [S|]; cbn [ob]; [|reflexivity].
  generalize (Ninv t v (L0, L1, L2, L3) g sh). intros [[N HG]|]; cbn [ob]; [|reflexivity]. generalize (minv 4 (Minv g N)). intros [M|]; cbn [ob]; [|reflexivity].
  rewrite H. generalize (prefactor (with_monitor m' t) v L0 Lm g HG M). intros [r|]; cbn [ob]; [|reflexivity]. rewrite !mosaic_m. generalize (with_mosaic t (g_q g) (Minv g N) M r). intros [[r' M']|]; cbn [ob]; [|reflexivity].
  change (t_thickness (with_monitor m t)) with (t_thickness t). change (t_thickness (with_monitor m' t)) with (t_thickness t). change (t_Q (with_monitor m t)) with (t_Q t). change (t_Q (with_monitor m' t)) with (t_Q t).
  generalize (t_thickness t), (t_Q t). intros [a|] [b|]; reflexivity.
Qed.
(** Of a monitor whose height is given, the width changes nothing. *)
Theorem C62_monitor_width t q w a b h : let ta := with_monitor (Some (mkW (Some a) (Some h))) t in let tb := with_monitor (Some (mkW (Some b) (Some h))) t in
  usable ta 1 -> usable tb 1 -> reachable ta (q, w) -> calc_in_Q ta [(q, w)] = calc_in_Q tb [(q, w)].
Proof.
  intros ta tb Ua Ub R. subst ta tb. destruct (lengths_ok _ 1 Ua) as [[[[[L0 L1] L2] L3] Lm] [EL _]].
  destruct (single _ q w L0 L1 L2 L3 Lm Ua R EL) as (sh & Es & _ & E1). destruct (single (with_monitor (Some (mkW (Some b) (Some h))) t) q w L0 L1 L2 L3 Lm Ub R EL) as (sh' & Es' & _ & E2).
  assert (sh' = sh) by (change (sshapes t 0 = Some sh) in Es; change (sshapes t 0 = Some sh') in Es'; congruence). subst sh'. rewrite E1, E2. clear E1 E2.
  rewrite (resolution_m t _ (Some (mkW (Some b) (Some h)))); [reflexivity|].
  intros HG M. unfold prefactor. rewrite (Rmon_width t a b h _ L0 Lm _ 1 Ua Ub). reflexivity.
Qed.
Print Assumptions C62_monitor_width.
Example C62_monitor_width_ex : let t := case 1 (Some (MNum 1)) None None None in
  t_monitor t = Some (mkW (Some 5) (Some 12)) /\ usable (with_monitor (Some (mkW (Some 5) (Some 12))) t) 1 /\ usable (with_monitor (Some (mkW (Some 50) (Some 12))) t) 1 /\ moncor t = 1%Z.
Proof.
  intros t. assert (U := case_usable 1 (Some (MNum 1)) None None None 1 ltac:(lra) Logic.I). split; [reflexivity|]. split; [exact U|]. split; [|reflexivity].
  destruct U as (A & B & C & D & E & F). split; [exact A|]. split; [exact B|]. split; [exact C|]. split; [exact D|]. split; [simpl; lra|exact F].
Qed.

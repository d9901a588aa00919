(** Properties of the magnetic form factor (C48). *)
From Coq Require Import String List ZArith QArith Reals Qreals Lra Lia Bool.
From Verif Require Import Base AtomData StructModel SymGroup.
Import ListNotations.
Local Open Scope R_scope.

(** C48.  Everything depends on q through q^2 only. *)
Theorem C48_even : forall m g q q', q ^ 2 = q' ^ 2 -> mag_point m g q = mag_point m g q'.
Proof.
  intros m g q q' E. assert (X : (q / 4 / PI) ^ 2 = (q' / 4 / PI) ^ 2).
  { unfold Rdiv. rewrite !Rpow_mult_distr, E. reflexivity. }
  unfold mag_point, three. now rewrite X.
Qed.
Print Assumptions C48_even.

(** C48.  At q = 0 the form factor is the sum of the four j0 amplitudes, for every g, and j2 = j4 = 0. *)
Definition amplitudes (l : list Q) : Q := (nth 0 l 0 + nth 2 l 0 + nth 4 l 0 + nth 6 l 0)%Q.
Theorem C48_zero : forall m g, ff (mag_point m g 0) = Q2R (amplitudes (m_j0 m)) /\ fj0 (mag_point m g 0) = Q2R (amplitudes (m_j0 m)) /\
  fj2 (mag_point m g 0) = 0 /\ fj4 (mag_point m g 0) = 0.
Proof.
  intros m g. unfold mag_point. cbn [ff fj0 fj2 fj4]. replace (0 / 4 / PI) with 0 by (unfold Rdiv; ring).
  assert (T : three (m_j0 m) 0 = Q2R (amplitudes (m_j0 m))).
  { unfold three, coef, amplitudes. rewrite !Q2R_plus. replace (0 ^ 2) with 0 by ring. rewrite !Rmult_0_r, exp_0. ring. }
  rewrite T. replace (0 ^ 2) with 0 by ring. rewrite !Rmult_0_l. repeat split; try ring.
Qed.
Print Assumptions C48_zero.
(** C48.  For every tabulated ion that value is within 0.0025 of one. *)
Lemma normalised_checked : forallb (fun m => Qle_bool (99750 # 100000) (amplitudes (m_j0 m)) && Qle_bool (amplitudes (m_j0 m)) (100250 # 100000)) magnetic_table = true.
Proof. vm_compute. reflexivity. Qed.
Theorem C48_normalised : forall m g, In m magnetic_table -> Rabs (ff (mag_point m g 0) - 1) <= 25 / 10000.
Proof.
  intros m g I. destruct (C48_zero m g) as (-> & _). assert (T := normalised_checked). rewrite forallb_forall in T. specialize (T m I). apply andb_prop in T. destruct T as [A B].
  apply Qle_bool_iff, Qle_Rle in A, B. unfold Q2R in A at 1. unfold Q2R in B at 2. cbn in A, B. apply Rabs_le. lra.
Qed.
Print Assumptions C48_normalised.
(** C48.  With g = 2 (the default) the form factor is j0 alone. *)
Theorem C48_spin_only : forall m q, ff (mag_point m 2 q) = fj0 (mag_point m 2 q).
Proof. intros. unfold mag_point. cbn [ff fj0]. replace (2 / 2 - 1) with 0 by field. ring. Qed.
Print Assumptions C48_spin_only.

(** C48.  Bounds: with non-negative exponents, j0 is at most the sum of the absolute amplitudes, and decays to the constant. *)
Definition decaying (l : list Q) : bool := (Qle_bool 0 (nth 1 l 0) && Qle_bool 0 (nth 3 l 0) && Qle_bool 0 (nth 5 l 0))%Q.
Definition bound (l : list Q) : R := Rabs (coef l 0) + Rabs (coef l 2) + Rabs (coef l 4) + Rabs (coef l 6).
Lemma exp_le_1 b x : 0 <= b -> exp (- b * x ^ 2) <= 1.
Proof. intros B. rewrite <- exp_0. assert (0 <= x ^ 2) by (rewrite <- Rsqr_pow2; apply Rle_0_sqr). assert (0 <= b * x ^ 2) by (apply Rmult_le_pos; auto).
  destruct (Req_dec (b * x ^ 2) 0) as [E|E]; [right; f_equal; lra|left; apply exp_increasing; lra]. Qed.
Lemma term_bound a b x : 0 <= b -> Rabs (a * exp (- b * x ^ 2)) <= Rabs a.
Proof.
  intros B. rewrite Rabs_mult, (Rabs_pos_eq (exp _)) by (left; apply exp_pos). assert (E := exp_le_1 b x B). assert (A := Rabs_pos a).
  rewrite <- (Rmult_1_r (Rabs a)) at 2. now apply Rmult_le_compat_l.
Qed.
Lemma three_bound l x : decaying l = true -> Rabs (three l x) <= bound l.
Proof.
  intros D. unfold decaying in D. apply andb_prop in D. destruct D as [D D5]. apply andb_prop in D. destruct D as [D1 D3].
  apply Qle_bool_iff, Qle_Rle in D1, D3, D5. rewrite RMicromega.Q2R_0 in D1, D3, D5.
  unfold three, bound. fold (coef l 1) in *. fold (coef l 3) in *. fold (coef l 5) in *.
  assert (T1 := term_bound (coef l 0) (coef l 1) x D1). assert (T3 := term_bound (coef l 2) (coef l 3) x D3). assert (T5 := term_bound (coef l 4) (coef l 5) x D5).
  eapply Rle_trans; [apply Rabs_triang|]. eapply Rle_trans; [apply Rplus_le_compat_r, Rabs_triang|]. eapply Rle_trans; [apply Rplus_le_compat_r, Rplus_le_compat_r, Rabs_triang|]. lra.
Qed.
Definition growing_ions : list string := ["Cr2+"; "Mn2+"; "Mn3+"]%string.
Lemma decaying_checked : forallb (fun m => Bool.eqb (decaying (m_j0 m)) (negb (existsb (String.eqb (m_ion m)) growing_ions))) magnetic_table = true.
Proof. vm_compute. reflexivity. Qed.
Theorem C48_bounded : forall m q, In m magnetic_table -> ~ In (m_ion m) growing_ions -> Rabs (ff (mag_point m 2 q)) <= bound (m_j0 m).
Proof.
  intros m q I N. rewrite C48_spin_only. unfold mag_point. cbn [fj0]. apply three_bound. assert (T := decaying_checked). rewrite forallb_forall in T. specialize (T m I).
  apply Bool.eqb_prop in T. rewrite T. apply negb_true_iff. destruct (existsb _ growing_ions) eqn:E; auto. apply existsb_exists in E. destruct E as (k & K & E). apply String.eqb_eq in E. subst k. contradiction.
Qed.
Print Assumptions C48_bounded.
Example C48_ex : exists m, In m magnetic_table /\ m_ion m = "Fe2+"%string /\ ~ In (m_ion m) growing_ions /\ (length magnetic_table = 95)%nat.
Proof.
  destruct (ion_of "Fe2+") as [m|] eqn:E; [|discriminate E]. exists m. apply find_some in E. destruct E as [I E]. apply String.eqb_eq in E. split; auto. split; auto. split; [|reflexivity].
  rewrite E. cbn. intuition discriminate.
Qed.
(** C48.  For the three others the tabulated j0 has a negative exponent and grows without bound: at the
    momentum transfers of a hot-neutron instrument it exceeds any physical value. *)
Definition grows (l : list Q) : bool := (Qle_bool 0 (nth 0 l 0) && Qle_bool 0 (nth 2 l 0) && Qle_bool 0 (nth 4 l 0) &&
  ((negb (Qle_bool (nth 0 l 0) 0) && negb (Qle_bool 0 (nth 1 l 0))) || (negb (Qle_bool (nth 4 l 0) 0) && negb (Qle_bool 0 (nth 5 l 0)))))%Q.
Lemma not_le_R a b : Qle_bool a b = false -> Q2R b < Q2R a.
Proof. intros H. destruct (Qlt_le_dec b a) as [L|L]; [now apply Qlt_Rlt|apply Qle_bool_iff in L; congruence]. Qed.
Lemma grows_unbounded l : grows l = true -> forall B, exists x, three l x > B.
Proof.
  unfold grows. intros H B. apply andb_prop in H. destruct H as [H H4]. apply andb_prop in H. destruct H as [H H3]. apply andb_prop in H. destruct H as [H1 H2].
  apply Qle_bool_iff, Qle_Rle in H1, H2, H3. rewrite RMicromega.Q2R_0 in H1, H2, H3.
  assert (X : exists a k, 0 < a /\ 0 < k /\ forall x, three l x >= a * exp (k * x ^ 2) + coef l 6).
  { apply orb_prop in H4. destruct H4 as [H4|H4]; apply andb_prop in H4; destruct H4 as [A K]; apply negb_true_iff in A, K; apply not_le_R in A, K; rewrite RMicromega.Q2R_0 in A, K.
    - exists (coef l 0), (- coef l 1). unfold coef. split; [lra|]. split; [lra|]. intros x. unfold three, coef.
      assert (0 <= Q2R (nth 2 l 0%Q) * exp (- Q2R (nth 3 l 0%Q) * x ^ 2)) by (apply Rmult_le_pos; [lra|left; apply exp_pos]).
      assert (0 <= Q2R (nth 4 l 0%Q) * exp (- Q2R (nth 5 l 0%Q) * x ^ 2)) by (apply Rmult_le_pos; [lra|left; apply exp_pos]). lra.
    - exists (coef l 4), (- coef l 5). unfold coef. split; [lra|]. split; [lra|]. intros x. unfold three, coef.
      assert (0 <= Q2R (nth 2 l 0%Q) * exp (- Q2R (nth 3 l 0%Q) * x ^ 2)) by (apply Rmult_le_pos; [lra|left; apply exp_pos]).
      assert (0 <= Q2R (nth 0 l 0%Q) * exp (- Q2R (nth 1 l 0%Q) * x ^ 2)) by (apply Rmult_le_pos; [lra|left; apply exp_pos]). lra. }
  destruct X as (a & k & A & K & X). exists (sqrt ((Rabs B + Rabs (coef l 6)) / (a * k))). assert (P : 0 <= (Rabs B + Rabs (coef l 6)) / (a * k)).
  { apply Rmult_le_pos; [assert (Y := Rabs_pos B); assert (Y' := Rabs_pos (coef l 6)); lra|left; apply Rinv_0_lt_compat, Rmult_lt_0_compat; auto]. }
  eapply Rge_gt_trans; [apply X|]. rewrite pow2_sqrt by auto. replace (k * ((Rabs B + Rabs (coef l 6)) / (a * k))) with ((Rabs B + Rabs (coef l 6)) / a) by (field; lra).
  set (t := (Rabs B + Rabs (coef l 6)) / a). assert (E := exp_ineq1_le t). assert (F : a * (1 + t) <= a * exp t) by (apply Rmult_le_compat_l; lra).
  replace (a * (1 + t)) with (a + (Rabs B + Rabs (coef l 6))) in F by (unfold t; field; lra). assert (Y := Rle_abs B). assert (Y' := Rle_abs (- coef l 6)). rewrite Rabs_Ropp in Y'. lra.
Qed.
Lemma growing_checked : forallb (fun ion => match ion_of ion with Some m => grows (m_j0 m) | None => false end) growing_ions = true.
Proof. vm_compute. reflexivity. Qed.
Theorem C48_unbounded_refuted : forall ion, In ion growing_ions -> exists m, In m magnetic_table /\ m_ion m = ion /\
  forall B, exists q, ff (mag_point m 2 q) > B.
Proof.
  intros ion I. assert (T := growing_checked). rewrite forallb_forall in T. specialize (T ion I). destruct (ion_of ion) as [m|] eqn:E; [|discriminate].
  unfold ion_of in E. apply find_some in E. destruct E as [J E]. apply String.eqb_eq in E. exists m. split; auto. split; auto. intros B.
  destruct (grows_unbounded _ T B) as (x & X). exists (4 * PI * x). rewrite C48_spin_only. unfold mag_point. cbn [fj0]. replace (4 * PI * x / 4 / PI) with x; auto.
  field. assert (P := PI_RGT_0). lra.
Qed.
Print Assumptions C48_unbounded_refuted.

(** C48.  Calls: arrays are evaluated entry by entry; a list raises TypeError although documented; an ion not in
    the table is a KeyError, not the ValueError the constructor prepares. *)
Theorem C48_calls : forall m g, g <> Some 0 ->
  (forall q, calc_mag_form_fac m (QNum q) g = Ok [mag_point m (match g with Some x => x | None => 2 end) q]) /\
  (forall l, exists r, calc_mag_form_fac m (QArray l) g = Ok r /\ length r = length l /\ forall n d, (n < length l)%nat -> calc_mag_form_fac m (QNum (nth n l d)) g = Ok [nth n r (mag_point m 2 0)]) /\
  (forall l, calc_mag_form_fac m (QList l) g = Err TypeError).
Proof.
  intros m g G0. unfold calc_mag_form_fac. destruct (Req_EM_T (match g with Some x => x | None => 2 end) 0) as [E|E].
  - exfalso. destruct g as [x|]; [apply G0; now rewrite E|lra].
  - split; auto. split; auto. intros l. eexists. split; [reflexivity|]. split; [now rewrite map_length|]. intros n d L.
    do 2 f_equal. rewrite (nth_indep _ _ (mag_point m (match g with Some x => x | None => 2 end) d)) by now rewrite map_length. now rewrite map_nth.
Qed.
Print Assumptions C48_calls.
Theorem C48_ions : forall ion, (exists m, In m magnetic_table /\ m_ion m = ion /\ magnetic_ion ion = Ok m) \/ ((forall m, In m magnetic_table -> m_ion m <> ion) /\ magnetic_ion ion = Err KeyError).
Proof.
  intros ion. unfold magnetic_ion, ion_of. destruct (find _ magnetic_table) as [m|] eqn:E.
  - left. exists m. apply find_some in E. destruct E as [I E]. apply String.eqb_eq in E. auto.
  - right. split; auto. intros m I F. assert (X := find_none _ _ E m I). cbv beta in X. rewrite F, String.eqb_refl in X. discriminate.
Qed.
Print Assumptions C48_ions.

(** C118: the scattering function and the susceptibility of a dataset. *)
From Coq Require Import List Arith Reals Lra Lia.
From Verif Require Import Base EnergyModel EnergyProps BalanceModel ScatterModel.
Import ListNotations.
Local Open Scope R_scope.

Lemma wavevector_value c E : physical c -> 0 < E -> exists q, 0 < q /\ (forall F, 0 < F -> wavevector_of c F = Fin (q * sqrt F)).
Proof.
  intros P _. destruct P as (Ph & _ & Pm & PJ & _). assert (PP := PI_RGT_0). assert (A : 0 < 2 * c_m c / c_J c) by (apply Rdiv_lt_0_compat; lra). assert (S := sqrt_lt_R0 _ A). assert (T : 0 < 10 ^ 10) by lra.
  exists (2 * PI * sqrt (2 * c_m c / c_J c) / (c_h c * 10 ^ 10)). split; [apply Rdiv_lt_0_compat; nra|]. intros F HF. assert (SF := sqrt_lt_R0 _ HF).
  unfold wavevector_of, wavelength_of. assert (B : c_h c ^ 2 / (2 * c_m c * F / c_J c) = Rsqr (c_h c / (sqrt (2 * c_m c / c_J c) * sqrt F))).
  { unfold Rsqr. assert (E1 := sqrt_sqrt _ (Rlt_le _ _ A)). assert (E2 := sqrt_sqrt _ (Rlt_le _ _ HF)). set (s := sqrt (2 * c_m c / c_J c)) in *. set (r := sqrt F) in *. replace (2 * c_m c * F / c_J c) with ((s * s) * (r * r)) by (rewrite E1, E2; field; lra). field. split; lra. }
  rewrite B, fsqrt_pos; [|unfold Rsqr; assert (0 < c_h c / (sqrt (2 * c_m c / c_J c) * sqrt F)) by (apply Rdiv_lt_0_compat; nra); nra].
  rewrite sqrt_Rsqr by (apply Rlt_le, Rdiv_lt_0_compat; nra). cbn [fmap]. f_equal. field. repeat split; lra.
Qed.
Lemma wavevector_nan c E : physical c -> E < 0 -> wavevector_of c E = NaN.
Proof.
  intros (Ph & _ & Pm & PJ & _) H. unfold wavevector_of, wavelength_of, fsqrt. destruct (Rle_lt_dec 0 _) as [N|]; [|reflexivity]. exfalso.
  assert (A : 0 < 2 * c_m c / c_J c * - E) by (apply Rmult_lt_0_compat; [apply Rdiv_lt_0_compat; lra|lra]). assert (B : c_h c ^ 2 / (2 * c_m c * E / c_J c) = - (c_h c ^ 2 / (2 * c_m c / c_J c * - E))) by (field; repeat split; lra).
  rewrite B in N. assert (0 < c_h c ^ 2 / (2 * c_m c / c_J c * - E)) by (apply Rdiv_lt_0_compat; [nra|exact A]). lra.
Qed.
Lemma nth_combine {A B} (l : list A) : forall (m : list B) i a b, nth_error l i = Some a -> nth_error m i = Some b -> nth_error (combine l m) i = Some (a, b).
Proof. induction l as [|x l IH]; intros [|y m] [|i] a b HA HB; try discriminate; cbn in *; [congruence|apply IH; assumption]. Qed.

(** The value of point [i] once its final wavevector is known. *)
Lemma at_point c sigma ei es ds i e d : sigma <> 0 -> nth_error es i = Some e -> nth_error ds i = Some d -> exists r, scattering_functions c sigma ei es ds = Ok r /\
  forall k, option_map snd (nth_error (array_waves c (map (fun e => ei - e) es)) i) = Some k -> nth_error r i = Some (mul_fl (div_fl (mul_fl (Fin (4 * PI / sigma)) (wavevec (values_of c ei))) k) (Fin d)).
Proof.
  intros S E D. unfold scattering_functions. destruct (Req_EM_T sigma 0); [contradiction|]. eexists. split; [reflexivity|]. intros k K.
  assert (N : nth_error (map snd (array_waves c (map (fun e => ei - e) es))) i = Some k) by (rewrite nth_error_map; exact K).
  exact (map_nth_error (fun p => mul_fl (div_fl (mul_fl (Fin (4 * PI / sigma)) (wavevec (values_of c ei))) (fst p)) (Fin (snd p))) i _ (nth_combine _ _ _ _ _ N D)).
Qed.
Lemma zero_in ei es : In 0 (map (fun e => ei - e) es) <-> In ei es.
Proof. rewrite in_map_iff. split; [intros (e & H & I); replace ei with e by lra; exact I|intros I; exists ei; split; [ring|exact I]]. Qed.

(** C118.  If no point has the whole incident energy as its energy transfer, each point has its own value: the counts times 4 pi / sigma times the root of the ratio of the
    incident to the final energy; nan where the energy transfer exceeds the incident energy. *)
Theorem C118_points : forall c sigma ei es ds, physical c -> 0 < ei -> sigma <> 0 -> ~ In ei es -> exists r, scattering_functions c sigma ei es ds = Ok r /\
  forall i e d, nth_error es i = Some e -> nth_error ds i = Some d ->
    (e < ei -> nth_error r i = Some (Fin (4 * PI / sigma * sqrt (ei / (ei - e)) * d))) /\ (ei < e -> nth_error r i = Some NaN).
Proof.
  intros c sigma ei es ds P He S N. destruct (scattering_functions c sigma ei es ds) as [r|] eqn:R; [|exfalso; unfold scattering_functions in R; destruct (Req_EM_T sigma 0); [contradiction|discriminate]].
  exists r. split; [reflexivity|]. intros i e d E D. destruct (at_point c sigma ei es ds i e d S E D) as (r' & R' & V). rewrite R in R'. injection R' as <-.
  assert (Z : ~ In 0 (map (fun e => ei - e) es)) by (rewrite zero_in; exact N). destruct (C19_array c (map (fun e => ei - e) es) i (ei - e) (map_nth_error (fun e => ei - e) i _ E)) as (A & _). specialize (A Z). rewrite A in V. cbn [option_map snd] in V.
  destruct (wavevector_value c ei P He) as (q & Q & W). assert (K : wavevec (values_of c ei) = Fin (q * sqrt ei)) by (unfold values_of; cbn [wavevec]; destruct (Req_EM_T ei 0); [lra|]; apply W, He). rewrite K in V.
  split; intros L; rewrite (V _ eq_refl).
  - assert (F : 0 < ei - e) by lra. assert (SF := sqrt_lt_R0 _ F). rewrite (W _ F). cbn [mul_fl div_fl]. destruct (Req_EM_T (q * sqrt (ei - e)) 0) as [B|B]; [apply Rmult_integral in B; lra|]. cbn [mul_fl]. do 2 f_equal. rewrite sqrt_div by lra. field. repeat split; lra.
  - rewrite (wavevector_nan c (ei - e) P) by lra. reflexivity.
Qed.
Print Assumptions C118_points.

(** C118.  If some point has it, every other point is 0 whatever its counts, and the point itself is infinite or (without counts) nan. *)
Theorem C118_stopped : forall c sigma ei es ds, physical c -> 0 < ei -> sigma <> 0 -> In ei es -> exists r, scattering_functions c sigma ei es ds = Ok r /\
  forall i e d, nth_error es i = Some e -> nth_error ds i = Some d ->
    (e <> ei -> nth_error r i = Some (Fin 0)) /\ (e = ei -> nth_error r i = Some (if Req_EM_T d 0 then NaN else Inf)).
Proof.
  intros c sigma ei es ds P He S N. destruct (scattering_functions c sigma ei es ds) as [r|] eqn:R; [|exfalso; unfold scattering_functions in R; destruct (Req_EM_T sigma 0); [contradiction|discriminate]].
  exists r. split; [reflexivity|]. intros i e d E D. destruct (at_point c sigma ei es ds i e d S E D) as (r' & R' & V). rewrite R in R'. injection R' as <-.
  apply zero_in in N. destruct (C19_array c (map (fun e => ei - e) es) i (ei - e) (map_nth_error (fun e => ei - e) i _ E)) as (_ & A & B).
  destruct (wavevector_value c ei P He) as (q & Q & W). assert (K : wavevec (values_of c ei) = Fin (q * sqrt ei)) by (unfold values_of; cbn [wavevec]; destruct (Req_EM_T ei 0); [lra|]; apply W, He). rewrite K in V.
  assert (SE := sqrt_lt_R0 _ He). assert (PP := PI_RGT_0). split; intros L.
  - rewrite (B N ltac:(lra)) in V. cbn [option_map snd] in V. rewrite (V _ eq_refl). cbn [mul_fl div_fl]. rewrite Rmult_0_l. reflexivity.
  - rewrite (A N ltac:(lra)) in V. cbn [option_map snd] in V. rewrite (V _ eq_refl). cbn [mul_fl div_fl]. destruct (Req_EM_T 0 0); [|lra]. destruct (Req_EM_T (4 * PI / sigma * (q * sqrt ei)) 0) as [Z|Z]; [|reflexivity]. exfalso.
    assert (X : 4 * PI / sigma * (q * sqrt ei) * sigma = 4 * PI * (q * sqrt ei)) by (field; exact S). rewrite Z, Rmult_0_l in X. assert (0 < q * sqrt ei) by nra. nra.
Qed.
Print Assumptions C118_stopped.
(** C118.  So the value of a point does not depend on that point alone. *)
Theorem C118_local_refuted : exists c sigma ei e d, physical c /\ 0 < ei /\ e < ei /\ 0 < d /\
  exists r s, scattering_functions c sigma ei [e] [d] = Ok r /\ scattering_functions c sigma ei [e; ei] [d; d] = Ok s /\ nth_error s 0 <> nth_error r 0.
Proof.
  exists ex_c, 1, 5, 0, 7. assert (P := proj1 C17_ex). split; [exact P|]. repeat (split; [lra|]).
  destruct (C118_points ex_c 1 5 [0] [7] P ltac:(lra) ltac:(lra) ltac:(intros [H|[]]; lra)) as (r & R & A). destruct (C118_stopped ex_c 1 5 [0; 5] [7; 7] P ltac:(lra) ltac:(lra) ltac:(cbn; auto)) as (s & T & B).
  exists r, s. split; [exact R|]. split; [exact T|]. destruct (A 0%nat 0 7 eq_refl eq_refl) as [A1 _]. destruct (B 0%nat 0 7 eq_refl eq_refl) as [B1 _]. rewrite (A1 ltac:(lra)), (B1 ltac:(lra)). intros [= H].
  replace (5 / (5 - 0)) with 1 in H by field. rewrite sqrt_1 in H. assert (PP := PI_RGT_0). lra.
Qed.
Print Assumptions C118_local_refuted.

(** C118.  A material without scattering cross section raises. *)
Theorem C118_no_cross_section : forall c ei es ts ds, scattering_functions c 0 ei es ds = Err ZeroDivisionError /\ susceptibilities c 0 ei es ts ds = Err ZeroDivisionError.
Proof. intros c ei es ts ds. assert (A : scattering_functions c 0 ei es ds = Err ZeroDivisionError) by (unfold scattering_functions; destruct (Req_EM_T 0 0); [reflexivity|lra]). unfold susceptibilities. rewrite A. split; reflexivity. Qed.
Print Assumptions C118_no_cross_section.

(** C118.  The susceptibility at a temperature above 0 is the scattering function times 1 - exp(-e / kT): it is 0 at e = 0, and with counts it has the sign of the energy transfer.
    At temperature 0 it is the scattering function for energy loss, and nan or infinite otherwise. *)
Theorem C118_susceptibility : forall c sigma ei es ts ds, physical c -> 0 < ei -> 0 < sigma -> ~ In ei es -> exists r, susceptibilities c sigma ei es ts ds = Ok r /\
  forall i e t d, nth_error es i = Some e -> nth_error ts i = Some t -> nth_error ds i = Some d -> e < ei ->
    let s := 4 * PI / sigma * sqrt (ei / (ei - e)) * d in
    (0 < t -> exists x, nth_error r i = Some (Fin x) /\ x = s * (1 - exp (- e / (86173303 / 1000000000 * t))) /\ (e = 0 -> x = 0) /\ (0 < d -> 0 < e -> 0 < x < s) /\ (0 < d -> e < 0 -> x < 0)) /\
    (t = 0 -> (0 < e -> nth_error r i = Some (Fin s)) /\ (e = 0 -> nth_error r i = Some NaN) /\ (e < 0 -> nth_error r i = Some (if Req_EM_T s 0 then NaN else Inf))).
Proof.
  intros c sigma ei es ts ds P He S N. destruct (C118_points c sigma ei es ds P He ltac:(lra) N) as (q & Q & A). unfold susceptibilities. rewrite Q. unfold bind. eexists. split; [reflexivity|]. intros i e t d E T D L. cbv zeta. set (s := 4 * PI / sigma * sqrt (ei / (ei - e)) * d).
  destruct (A i e d E D) as [V _]. specialize (V L). fold s in V.
  assert (M := map_nth_error (fun p => mul_fl (fst p) (balance_at (fst (snd p)) (snd (snd p)))) i _ (nth_combine _ _ _ _ _ V (nth_combine _ _ _ _ _ E T))). cbn [fst snd] in M. rewrite M. clear M.
  assert (PP := PI_RGT_0). unfold balance_at. split.
  - intros Ht. destruct (Req_EM_T t 0); [lra|]. cbn [mul_fl]. eexists. split; [reflexivity|]. unfold detailed_balance_factor, kB.
    assert (X : - e / (86173303 / 1000000000) / t = - e / (86173303 / 1000000000 * t)) by (field; lra). rewrite X. split; [reflexivity|]. set (k := 86173303 / 1000000000 * t) in *. assert (K : 0 < k) by (unfold k; nra). assert (IK := Rinv_0_lt_compat _ K).
    assert (SP : 0 < d -> 0 < s). { intros Hd. unfold s. apply Rmult_lt_0_compat; [|exact Hd]. apply Rmult_lt_0_compat; [apply Rdiv_lt_0_compat; lra|]. apply sqrt_lt_R0, Rdiv_lt_0_compat; lra. }
    split; [intros ->; unfold Rdiv; rewrite Ropp_0, Rmult_0_l, exp_0; ring|]. split.
    + intros Hd H. specialize (SP Hd). assert (Y : - e / k < 0) by (unfold Rdiv; nra). assert (Z := exp_increasing _ _ Y). rewrite exp_0 in Z. assert (Z' := exp_pos (- e / k)). nra.
    + intros Hd H. specialize (SP Hd). assert (Y : 0 < - e / k) by (unfold Rdiv; nra). assert (Z := exp_increasing _ _ Y). rewrite exp_0 in Z. nra.
  - intros ->. destruct (Req_EM_T 0 0); [|lra]. repeat split; intros H; destruct (Req_EM_T e 0); try lra; try reflexivity; destruct (Rlt_dec 0 e); try lra; cbn [mul_fl]; try reflexivity. rewrite Rmult_1_r. reflexivity.
Qed.
Print Assumptions C118_susceptibility.

(** ** Example: 100 counts at the energies 0 and 3 of 4, with a cross section of 4 pi: the values are 100 and 200; with a third point at 4 they are 0. *)
Example C118_case : exists r, scattering_functions ex_c (4 * PI) 4 [0; 3] [100; 100] = Ok r /\ nth_error r 0 = Some (Fin 100) /\ nth_error r 1 = Some (Fin 200).
Proof.
  assert (PP := PI_RGT_0). destruct (C118_points ex_c (4 * PI) 4 [0; 3] [100; 100] (proj1 C17_ex) ltac:(lra) ltac:(lra) ltac:(intros [H|[H|[]]]; lra)) as (r & R & A). exists r. split; [exact R|].
  destruct (A 0%nat 0 100 eq_refl eq_refl) as [B _]. destruct (A 1%nat 3 100 eq_refl eq_refl) as [C _]. rewrite (B ltac:(lra)), (C ltac:(lra)). split; do 2 f_equal.
  - replace (4 / (4 - 0)) with 1 by field. rewrite sqrt_1. field. lra.
  - replace (4 / (4 - 3)) with (2 * 2) by field. rewrite sqrt_square by lra. field. lra.
Qed.

(** C87: the text describing the last resolution calculation. *)
From Coquelicot Require Import Coquelicot.
From Coq Require Import String Reals List ZArith Lia Lra Psatz Bool.
From Verif Require Import Base LinAlg MatInv LatticeModel EnergyModel TasModel AngleModel EnergyProps LatticeProps TasProof TasCase Quad Gauss ConvProps KinProps TofCovProps DescribeModel.
From Verif Require MatModel.
Import ListNotations.
Local Open Scope R_scope.

(** * Integrals over space *)
Definition put (t : R) (x : vec) : vec := fun i => match i with O => t | S i => x i end.
(** [l] is the integral of [f], a function of the first [n] coordinates, over all of them, one after the other. *)
Fixpoint total (n : nat) (f : vec -> R) (l : R) : Prop :=
  match n with
  | O => f (fun _ => 0) = l
  | S n => exists I, (forall x, line (fun t => f (put t x)) (I x)) /\ total n I l
  end.
Lemma total_ext n : forall f g l, (forall x, f x = g x) -> total n f l -> total n g l.
Proof.
  induction n as [|n IH]; intros f g l E; cbn [total]; [rewrite E; auto|]. intros [I [H T]]. exists I. split; auto. intros x. apply (is_RInt_gen_ext (fun t => f (put t x))); auto.
  apply filter_forall. intros [a b] y _. apply E.
Qed.

Lemma gauss_line a c r z : 0 < a -> line (fun t => r * exp (- / 2 * (a * (t + c) ^ 2 + z))) (r * sqrt (2 * PI / a) * exp (- / 2 * z)).
Proof.
  intros Pa. assert (Ps := sqrt_lt_R0 a Pa). assert (Es := sqrt_sqrt a (Rlt_le _ _ Pa)). set (s := sqrt a) in *.
  set (k := r * exp (- / 2 * z) / s). assert (Cw : forall u, continuous wt u) by (intros u; apply near1_cont, wt_near).
  assert (L := over_line (fun t => r * exp (- / 2 * (a * (t + c) ^ 2 + z))) (fun u => k * wt u) (- c) (/ s) (Rinv_0_lt_compat _ Ps)).
  rewrite (RIs wt) in L by (apply (@ex_RInt_continuous R_CompleteNormedModule); intros; apply Cw). rewrite weight_total in L.
  replace (r * sqrt (2 * PI / a) * exp (- / 2 * z)) with (k * sqrt (2 * PI)).
  2:{ unfold k. rewrite sqrt_div; [|assert (P := PI_RGT_0); lra|exact Pa]. fold s. field. lra. }
  apply L.
  - intros u. apply (@continuous_scal_r R_UniformSpace R_AbsRing R_NormedModule k wt u). apply Cw.
  - intros u Lu. rewrite wt_in by exact Lu. unfold k. replace (- / 2 * (a * (- c + / s * tan u + c) ^ 2 + z)) with (- / 2 * tan u ^ 2 + - / 2 * z).
    + rewrite exp_plus. field. lra.
    + rewrite <- Es. field. lra.
Qed.

Lemma qf_put n M x t : posdef (S n) M -> let c := sum n (fun j => M O (S j) * x j) / M O O in qf (S n) M (put t x) = M O O * (t + c) ^ 2 + qf n (schur M) x.
Proof.
  intros P. assert (Pp := posdef_pivot n M P). destruct P as [Sy _]. set (p := M O O) in *. set (ry := sum n (fun j => M O (S j) * x j)). intros c.
  assert (Cr : sum n (fun i => x i * M (S i) O) = ry). { unfold ry. apply sum_ext. intros i Li. rewrite (Sy (S i) O) by lia. unfold tr. ring. }
  assert (A : qf n (schur M) x = sum n (fun i => sum n (fun j => x i * M (S i) (S j) * x j)) - ry * ry / p).
  { unfold qf. transitivity (sum n (fun i => sum n (fun j => x i * M (S i) (S j) * x j) - x i * M (S i) O * (ry / p))).
    - apply sum_ext. intros i _. replace (x i * M (S i) O * (ry / p)) with (sum n (fun j => x i * M (S i) O * / p * (M O (S j) * x j))) by (rewrite sum_scal; fold ry; unfold Rdiv; ring).
      rewrite <- sum_sub. apply sum_ext. intros j _. unfold schur. fold p. unfold Rdiv. ring.
    - rewrite sum_sub. f_equal. rewrite sum_scal_r, Cr. unfold Rdiv. ring. }
  rewrite A. unfold qf at 1. rewrite sum_first. rewrite sum_first. cbn [put]. fold p.
  rewrite (sum_ext n (fun j => t * M O (S j) * x j) (fun j => t * (M O (S j) * x j))) by (intros; ring). rewrite sum_scal. fold ry.
  rewrite (sum_ext n (fun i => sum (S n) (fun j => x i * M (S i) j * put t x j)) (fun i => t * (x i * M (S i) O) + sum n (fun j => x i * M (S i) (S j) * x j))) by (intros i _; rewrite sum_first; cbn [put]; ring).
  rewrite sum_add, sum_scal, Cr. unfold c. fold ry. field. lra.
Qed.

Theorem gauss_total : forall n M r d, posdef n M -> detm n M = Some d -> total n (fun x => r * exp (- / 2 * qf n M x)) (r * sqrt ((2 * PI) ^ n / d)).
Proof.
  induction n as [|n IH]; intros M r d P E.
  - cbn [detm] in E. injection E as <-. cbn [total pow]. unfold qf. cbn [sum]. replace (- / 2 * 0) with 0 by ring. rewrite exp_0. replace (1 / 1) with 1 by field. rewrite sqrt_1. ring.
  - assert (Pp := posdef_pivot n M P). assert (PP := PI_RGT_0). assert (Q := posdef_schur n M P). cbn [detm] in E. destruct (Req_EM_T (M O O) 0); [lra|]. destruct (posdef_detm n (schur M) Q) as [d' [E' Pd]]. rewrite E' in E. injection E as <-.
    exists (fun x => r * sqrt (2 * PI / M O O) * exp (- / 2 * qf n (schur M) x)). split.
    + intros x. set (c := sum n (fun j => M O (S j) * x j) / M O O). apply (is_RInt_gen_ext (fun t => r * exp (- / 2 * (M O O * (t + c) ^ 2 + qf n (schur M) x)))); [|apply gauss_line; exact Pp].
      apply filter_forall. intros [a b] y _. unfold c. rewrite <- (qf_put n M x y P). reflexivity.
    + replace (r * sqrt ((2 * PI) ^ S n / (M O O * d'))) with (r * sqrt (2 * PI / M O O) * sqrt ((2 * PI) ^ n / d')); [apply IH; auto|].
      rewrite Rmult_assoc, <- sqrt_mult; [| |]. 2: apply Rlt_le, Rdiv_lt_0_compat; lra. 2:{ apply Rlt_le, Rdiv_lt_0_compat; [apply pow_lt; lra|lra]. }
      f_equal. f_equal. cbn [pow]. field. lra.
Qed.

(** * Printed numbers *)
Lemma nearest_near x : Rabs (IZR (nearest x) - x) <= 1 / 2.
Proof.
  destruct (base_Int_part x) as [A B]. unfold nearest. set (f := Int_part x) in *. destruct (Rlt_dec (x - IZR f) (1 / 2)); [apply Rabs_le; lra|].
  destruct (Rlt_dec (1 / 2) (x - IZR f)); [rewrite plus_IZR; apply Rabs_le; lra|]. destruct (Z.even f); [|rewrite plus_IZR]; apply Rabs_le; lra.
Qed.
Lemma fixed_near n x : Rabs (IZR (fixed n x) / 10 ^ n - x) <= / 2 / 10 ^ n.
Proof.
  unfold fixed. assert (P : 0 < 10 ^ n) by (apply pow_lt; lra). assert (H := nearest_near (x * 10 ^ n)). replace (IZR (nearest (x * 10 ^ n)) / 10 ^ n - x) with ((IZR (nearest (x * 10 ^ n)) - x * 10 ^ n) * / 10 ^ n) by (field; lra).
  rewrite Rabs_mult, (Rabs_right (/ 10 ^ n)) by (apply Rle_ge, Rlt_le, Rinv_0_lt_compat; lra). apply Rmult_le_compat_r; [apply Rlt_le, Rinv_0_lt_compat; lra|lra].
Qed.
Lemma nearest_zero x : Rabs x < 1 / 2 -> nearest x = 0%Z.
Proof.
  intros H. assert (N := nearest_near x). apply Rabs_def2 in H. apply Rabs_le_between in N. assert (-1 < IZR (nearest x) < 1) by lra. destruct H0 as [A B]. apply lt_IZR in A. apply lt_IZR in B. lia.
Qed.
(** The number [z] printed with [n] decimals stands for [x]. *)
Definition stands (n : nat) (z : Z) (x : R) : Prop := Rabs (IZR z / 10 ^ n - x) <= / 2 / 10 ^ n.
Definition ostands (n : nat) (z : option Z) (x : option R) : Prop := match z, x with Some z, Some x => stands n z x | None, None => True | _, _ => False end.

Lemma stands_all a : Forall2 (ostands 2) (map (option_map (fixed 2)) a) a.
Proof. induction a as [|x a IH]; constructor; auto. destruct x; cbn; [apply fixed_near|exact I]. Qed.

(** * C87 *)
Lemma determinant_ok M : posdef 4 M -> detm 4 M = Some (determinant M).
Proof.
  intros P. destruct (posdef_detm 4 M P) as [d [E _]]. rewrite E. f_equal.
  change (detm 4 M) with (if Req_EM_T (M 0%nat 0%nat) 0 then None else match detm 3 (schur M) with None => None | Some d => Some (M 0%nat 0%nat * d) end) in E.
  destruct (Req_EM_T (M 0%nat 0%nat) 0) as [|N0]; [discriminate|]. set (A := schur M) in *.
  change (detm 3 A) with (if Req_EM_T (A 0%nat 0%nat) 0 then None else match detm 2 (schur A) with None => None | Some d => Some (A 0%nat 0%nat * d) end) in E.
  destruct (Req_EM_T (A 0%nat 0%nat) 0) as [|N1]; [discriminate|]. set (B := schur A) in *. cbn [detm] in E.
  destruct (Req_EM_T (B 0%nat 0%nat) 0) as [|N2]; [discriminate|]. destruct (Req_EM_T (schur B 0%nat 0%nat) 0) as [|N3]; [discriminate|]. injection E as <-.
  transitivity (M 0%nat 0%nat * (A 0%nat 0%nat * (B 0%nat 0%nat * B 1%nat 1%nat - B 1%nat 0%nat * B 0%nat 1%nat))); [unfold schur at 1; field; exact N2|].
  transitivity (M 0%nat 0%nat * (A 0%nat 0%nat * (A 1%nat 1%nat * A 2%nat 2%nat - A 1%nat 2%nat * A 2%nat 1%nat) - A 0%nat 1%nat * (A 1%nat 0%nat * A 2%nat 2%nat - A 1%nat 2%nat * A 2%nat 0%nat) + A 0%nat 2%nat * (A 1%nat 0%nat * A 2%nat 1%nat - A 1%nat 1%nat * A 2%nat 0%nat)));
    [unfold B, schur; field; exact N1|]. unfold A, schur, determinant, minor. field. exact N0.
Qed.

(** The volume printed is twice the integral of the resolution function exp(-(1/2) x M x) over momentum and energy. *)
Theorem C87_volume : forall c t l o1 o2 ps m ms rs d, posdef 4 m -> describe c t l o1 o2 (Some (mkLast ps (m :: ms) rs)) = Ok d ->
  exists v z, total 4 (fun x => exp (- / 2 * qf 4 m x)) v /\ 0 < v /\ d_volume d = Some z /\ stands 6 z (2 * v).
Proof.
  intros c t l o1 o2 ps m ms rs d P E. unfold describe in E. destruct (method_name t) as [name|]; [|discriminate]. cbn [bind] in E. destruct ps as [|[hkl w] ps]; [discriminate|]. destruct rs as [|r rs]; [discriminate|].
  destruct (get_angles_and_Q c t l o1 o2 hkl w) as [a|]; [|discriminate]. cbn [bind] in E. injection E as <-. cbn [d_volume]. assert (D := determinant_ok m P). destruct (posdef_detm 4 m P) as [d' [E' Pd]]. rewrite D in E'. injection E' as <-.
  assert (PP := PI_RGT_0). assert (Ps := sqrt_lt_R0 _ Pd). unfold printed_volume. destruct (Rlt_dec 0 (determinant m)); [|contradiction]. exists ((2 * PI) ^ 2 / sqrt (determinant m)). eexists. split; [|split; [|split; [reflexivity|apply fixed_near]]].
  - apply (total_ext 4 (fun x => 1 * exp (- / 2 * qf 4 m x))); [intros; ring|]. replace ((2 * PI) ^ 2 / sqrt (determinant m)) with (1 * sqrt ((2 * PI) ^ 4 / determinant m)); [apply gauss_total; auto|].
    rewrite sqrt_div by (try apply pow_le; lra). replace ((2 * PI) ^ 4) with ((2 * PI) ^ 2 * (2 * PI) ^ 2) by ring. rewrite sqrt_square by (apply pow_le; lra). ring.
  - apply Rdiv_lt_0_compat; [apply pow_lt; lra|exact Ps].
Qed.
Print Assumptions C87_volume.

(** Everything else belongs to the first point calculated: its matrix to the nearest whole numbers (divided by ten thousand), its
    prefactor and widths to three decimals, and the angles of the present instrument at this point to two. *)
Theorem C87_first_point : forall c t l o1 o2 hkl w ps m ms r rs d, describe c t l o1 o2 (Some (mkLast ((hkl, w) :: ps) (m :: ms) (r :: rs))) = Ok d ->
  d_position d = (hkl, w) :: ps /\
  (forall i j, (i < 4)%nat -> (j < 4)%nat -> exists z, nth_error (nth j (d_matrix d) []) i = Some z /\ Rabs (IZR z - m i j) <= / 2) /\
  stands 3 (d_prefactor d) r /\
  (exists a q, get_angles_and_Q c t l o1 o2 hkl w = Ok (a, q) /\ Forall2 (ostands 2) (d_angles d) a) /\
  (forall wd, MatModel.bragg_widths m = Some wd -> exists z1 z2 z3 zz zv, d_widths d = Some (z1, z2, z3, zz, zv) /\
    stands 3 z1 (nth 0 wd 0) /\ stands 3 z2 (nth 1 wd 0) /\ stands 3 zz (nth 2 wd 0) /\ stands 3 zv (nth 3 wd 0) /\ stands 3 z3 (nth 4 wd 0)).
Proof.
  intros c t l o1 o2 hkl w ps m ms r rs d E. unfold describe in E. destruct (method_name t) as [name|]; [|discriminate]. cbn [bind] in E.
  destruct (get_angles_and_Q c t l o1 o2 hkl w) as [[a q]|] eqn:G; [|discriminate]. cbn [bind] in E. injection E as <-. cbn [d_position d_matrix d_prefactor d_angles d_widths].
  split; [reflexivity|]. split; [|split; [apply fixed_near|split]].
  - intros i j Li Lj. exists (fixed 4 (m i j / 10000)). split.
    + unfold matrix_lines. do 4 (destruct j as [|j]; [do 4 (destruct i as [|i]; [reflexivity|]); lia|]). lia.
    + assert (H := fixed_near 4 (m i j / 10000)). replace (IZR (fixed 4 (m i j / 10000)) - m i j) with ((IZR (fixed 4 (m i j / 10000)) / 10 ^ 4 - m i j / 10000) * 10000) by field. rewrite Rabs_mult, (Rabs_right 10000) by lra.
      replace (/ 2) with (/ 2 / 10 ^ 4 * 10000) by field. apply Rmult_le_compat_r; [lra|exact H].
  - exists a, q. split; [reflexivity|]. apply stands_all.
  - intros wd W. unfold widths. rewrite W. eexists _, _, _, _, _. split; [reflexivity|]. repeat split; apply fixed_near.
Qed.
Print Assumptions C87_first_point.

(** Matrix, volume, prefactor and widths are those of the last calculation, whatever has been changed since. *)
Theorem C87_old_matrix : forall c t t' l l' o1 o2 o1' o2' s d d', describe c t l o1 o2 s = Ok d -> describe c t' l' o1' o2' s = Ok d' ->
  d_position d = d_position d' /\ d_matrix d = d_matrix d' /\ d_volume d = d_volume d' /\ d_prefactor d = d_prefactor d' /\ d_widths d = d_widths d'.
Proof.
  intros c t t' l l' o1 o2 o1' o2' s d d' E E'. unfold describe in *. destruct (method_name t) as [n|]; [|discriminate]. destruct (method_name t') as [n'|]; [|discriminate]. cbn [bind] in *. destruct s as [[ps ms rs]|]; [|discriminate].
  destruct ps as [|[hkl w] ps]; [discriminate|]. destruct ms as [|m ms]; [discriminate|]. destruct rs as [|r rs]; [discriminate|].
  destruct (get_angles_and_Q c t l o1 o2 hkl w); [|discriminate]. destruct (get_angles_and_Q c t' l' o1' o2' hkl w); [|discriminate]. cbn [bind] in *. injection E as <-. injection E' as <-. repeat split.
Qed.
Print Assumptions C87_old_matrix.

(** The fixed wave vector is that of the fixed energy of the present instrument: the energy of a neutron with it is efixed. *)
Theorem C87_fixed_wavevector : forall c t l o1 o2 s d, physical c -> 0 <= t_efixed t -> describe c t l o1 o2 s = Ok d ->
  exists z k, d_kfix d = Some z /\ stands 3 z k /\ 0 <= k /\ kinetic c k = t_efixed t.
Proof.
  intros c t l o1 o2 s d P L E. unfold describe in E. destruct (method_name t) as [n|]; [|discriminate]. cbn [bind] in E. destruct s as [[ps ms rs]|]; [|discriminate]. destruct ps as [|[hkl w] ps]; [discriminate|]. destruct ms as [|m ms]; [discriminate|]. destruct rs as [|r rs]; [discriminate|].
  destruct (get_angles_and_Q c t l o1 o2 hkl w); [|discriminate]. cbn [bind] in E. injection E as <-. cbn [d_kfix].
  assert (W : exists k, wavevec (values_of c (t_efixed t)) = Fin k /\ 0 <= k /\ kinetic c k = t_efixed t).
  { destruct (Req_dec (t_efixed t) 0) as [Z|Z].
    - destruct (wave_energy c (t_efixed t) P L) as (k & Ek & Kk). exists k. split; [exact Ek|]. split; [|exact Kk]. unfold values_of in Ek. cbn [wavevec] in Ek. destruct (Req_EM_T (t_efixed t) 0); [|contradiction]. injection Ek as <-. lra.
    - destruct (wave_pos c (t_efixed t) P ltac:(lra)) as (k & _ & Ek & _ & Pk & _ & _ & Kk). exists k. split; [exact Ek|]. split; [lra|exact Kk]. }
  destruct W as (k & Ek & Pk & Kk). unfold values_of in Ek. cbn [wavevec] in Ek. rewrite Ek. cbn [ofl option_map]. exists (fixed 3 k), k. split; [reflexivity|]. split; [apply fixed_near|]. split; assumption.
Qed.
Print Assumptions C87_fixed_wavevector.

(** FX tells which energy the calculation keeps fixed: 1 the incident one, 2 the final one, as long as infin is 1, -1 or unset. *)
Theorem C87_fixed_energy : forall t, (t_infin t = None \/ t_infin t = Some 1 \/ t_infin t = Some (-1)) -> forall w,
  (FX t = 1%Z /\ energies t w = (t_efixed t, t_efixed t - w)) \/ (FX t = 2%Z /\ energies t w = (t_efixed t + w, t_efixed t)).
Proof.
  intros t H w. unfold FX, energies. destruct H as [-> | [-> | ->]]; cbn [opt].
  - right. split; [reflexivity|]. destruct (Rlt_dec 0 (-1)); [lra|reflexivity].
  - left. destruct (Req_EM_T 1 (-1)); [lra|]. destruct (Req_EM_T 1 1); [|lra]. split; [reflexivity|]. destruct (Rlt_dec 0 1); [reflexivity|lra].
  - right. destruct (Req_EM_T (-1) (-1)); [|lra]. destruct (Req_EM_T (-1) 1); [lra|]. split; [reflexivity|]. destruct (Rlt_dec 0 (-1)); [lra|reflexivity].
Qed.
Print Assumptions C87_fixed_energy.
(** Any other value is printed as 0, and the angles printed are not those of the calculation. *)
Theorem C87_other_infin_refuted : exists t, FX t = 0%Z /\ (forall w, energies t w = (t_efixed t, t_efixed t - w)) /\
  forall c k w, ofl (wavevec (values_of c (t_efixed t))) = Some k -> 0 < w -> ki_of c t w <> ki_of c t 0.
Proof.
  set (t0 := case 1 None None None None).
  exists (mkTas (t_method t0) (t_moncor t0) (t_hcol t0) (t_vcol t0) (t_mono t0) (t_ana t0) (t_thickness t0) (t_Q t0) (Some 2) (t_efixed t0) (t_arms t0) (t_horifoc t0) (t_guide t0) (t_monitor t0) (t_detector t0) (s_dir t0) (s_mosaic t0) (s_vmosaic t0) (s_type t0) (s_width t0) (s_height t0) (s_depth t0) (s_shape t0)).
  set (t := mkTas _ _ _ _ _ _ _ _ _ _ _ _ _ _ _ _ _ _ _ _ _ _ _). assert (F : FX t = 0%Z). { unfold FX. cbn [t_infin t]. destruct (Req_EM_T 2 (-1)); [lra|]. destruct (Req_EM_T 2 1); [lra|]. reflexivity. }
  assert (F' : fx_of t = 0). { unfold fx_of. cbn [t_infin t]. destruct (Req_EM_T 2 (-1)); [lra|]. destruct (Req_EM_T 2 1); [lra|]. ring. }
  split; [exact F|]. split. { intros w. unfold energies. cbn [t_infin t opt]. destruct (Rlt_dec 0 2); [reflexivity|lra]. }
  intros c k w K Pw. unfold ki_of. rewrite K, F'. cbn [obind]. unfold f_conv, osqrt. destruct (Rle_dec 0 (k ^ 2 + (0 - 1) * (4826 / 10000) * 0)) as [L|L].
  - destruct (Rle_dec 0 (k ^ 2 + (0 - 1) * (4826 / 10000) * w)) as [L'|L']; [|discriminate]. intros X. injection X as X. apply sqrt_inj in X; auto. lra.
  - exfalso. apply L. assert (0 <= k ^ 2) by apply pow2_ge_0. lra.
Qed.
Print Assumptions C87_other_infin_refuted.

(** The method named is the one used for 0, 1 or none; no text at all for a method given by its name. *)
Theorem C87_method : forall t, 
  ((t_method t = None \/ t_method t = Some (MNum 0) \/ t_method t = Some (MNum 1)) -> method_name t = Ok (if popovici t then "Popovici" else "Cooper-Nathans")%string) /\
  (forall z, t_method t = Some (MNum z) -> (z < -2 \/ 1 < z)%Z -> method_name t = Err IndexError) /\
  (forall n, t_method t = Some (MStr n) -> method_name t = Err TypeError).
Proof.
  intros t. split; [|split].
  - unfold method_name, popovici, meth. intros [-> | [-> | ->]]; reflexivity.
  - intros z E L. unfold method_name. rewrite E. destruct (Z.eqb_spec z 0); [lia|]. destruct (Z.eqb_spec z 1); [lia|]. destruct (Z.eqb_spec z (-1)); [lia|]. destruct (Z.eqb_spec z (-2)); [lia|]. reflexivity.
  - intros n E. unfold method_name. rewrite E. reflexivity.
Qed.
Print Assumptions C87_method.
Theorem C87_no_text : forall c t l o1 o2 s, (forall z, t_method t = Some (MNum z) -> z = 0%Z \/ z = 1%Z) -> 
  (describe c t l o1 o2 None = Err (match t_method t with Some (MStr _) => TypeError | _ => AttributeError end)) /\
  (forall n, t_method t = Some (MStr n) -> describe c t l o1 o2 s = Err TypeError).
Proof.
  intros c t l o1 o2 s H. unfold describe, method_name. split.
  - destruct (t_method t) as [[z|n]|]; [|reflexivity|reflexivity]. destruct (H z eq_refl) as [-> | ->]; reflexivity.
  - intros n ->. reflexivity.
Qed.
Print Assumptions C87_no_text.

(** An instrument and what it prints after calculating two points. *)
Example C87_case : exists d, posdef 4 idm /\ describe ex_c (case 1 None None None None) rhombo (V 1 0 0) (V 0 1 0) (Some (mkLast [(V 1 1 0, 0); (V 2 0 0, 1)] [idm; diag [1; 2; 3; 4]] [7; 8])) = Ok d /\ d_method d = "Cooper-Nathans"%string /\ d_FX d = 2%Z /\ d_prefactor d = 7000%Z.
Proof.
  eexists. split; [apply posdef_idm|]. split.
  - unfold describe. cbn [method_name t_method case bind]. unfold get_angles_and_Q, spacing. cbn [t_mono t_ana case x_tau case_x]. destruct (Req_EM_T 2 0); [lra|]. cbn [bind]. reflexivity.
  - cbn [d_method d_FX d_prefactor]. split; [reflexivity|]. split; [reflexivity|]. unfold fixed, nearest. replace (7 * 10 ^ 3) with (IZR 7000) by (rewrite <- mult_IZR || (cbn [pow]; lra)).
    replace (Int_part (IZR 7000)) with 7000%Z. 2:{ destruct (base_Int_part (IZR 7000)) as [A B]. apply le_IZR in A. assert (C : IZR 6999 < IZR (Int_part (IZR 7000))) by lra. apply lt_IZR in C. lia. }
    destruct (Rlt_dec (IZR 7000 - IZR 7000) (1 / 2)); [reflexivity|lra].
Qed.

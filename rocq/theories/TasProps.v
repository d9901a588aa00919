(** C42: the resolution matrix and prefactor of a triple-axis spectrometer in the coordinate system of Q. *)
From Coq Require Import String List ZArith Reals Lra Lia Psatz Bool.
From Verif Require Import Base MatInv TasModel TasProof TasMirror TasWide TasCase.
Import ListNotations.
Local Open Scope R_scope.

(** * Every reachable point *)
Lemma loop_reach t Ls n : usable t n -> Ls_nz Ls -> forall l v ind, vars_ok v -> v_ok v = true -> (ind + List.length l <= n)%nat -> Forall (reachable t) l ->
  exists rs, loop t Ls v ind l = Ok rs /\ Forall2 (fun _ o => exists r M, o = Some (r, M) /\ 0 < r /\ posdef 4 M) l rs.
Proof.
  intros U L. induction l as [|[q w] l IH]; intros v ind V O Le F; simpl; [eexists; split; [reflexivity|constructor]|].
  inversion F as [|? ? R F']; subst. simpl in Le. assert (Sok : sample_ok t n) by apply U. destruct (sshapes_ok t n ind Sok ltac:(lia)) as [sh [Es Ps]].
  rewrite (point_reach t Ls v ind q w n sh U Es V O L R). simpl bind. assert (Vn := next_ok t v w n U (proj1 R) V).
  destruct (IH (next t v w) (S ind) Vn O ltac:(lia) F') as [rs [-> Frs]]. eexists. split; [reflexivity|]. constructor; auto.
  destruct Ls as [[[[L0 L1] L2] L3] Lm]. destruct L as (N0 & N1 & N2 & N3 & Nm). apply (at_ok t (next t v w) L0 L1 L2 L3 Lm (geom_of t q w) sh n); auto; [now apply geom_ok with n|].
  destruct R as (_ & _ & _ & Ka & _). unfold geom_of. simpl. lra.
Qed.
(** A spectrometer without vanishing divergences, mosaics, sizes, radii and lengths gives, at every point it can reach, a positive
    prefactor and a positive definite resolution matrix, one for each point and in their order. *)
Theorem C42_positive t points : usable t (List.length points) -> Forall (reachable t) points ->
  exists rs, calc_in_Q t points = Ok rs /\ Forall2 (fun _ o => exists r M, o = Some (r, M) /\ 0 < r /\ posdef 4 M) points rs.
Proof.
  intros U F. unfold calc_in_Q. destruct (lengths_ok t _ U) as [Ls [-> L]]. simpl bind. destruct (start_ok t _ U). now apply loop_reach with (List.length points).
Qed.
Print Assumptions C42_positive.
Example C42_positive_ex : forall m, usable (case 1 m None (Some 10) None) (List.length case_points) /\ Forall (reachable (case 1 m None (Some 10) None)) case_points.
Proof. intros m. split; [apply case_usable; auto; lra|apply case_points_ok]. Qed.

(** * A triangle that does not close *)
Lemma cosh_ge_1 e : 1 <= cosh e.
Proof.
  unfold cosh. rewrite exp_Ropp. assert (P := exp_pos e). set (y := exp e) in *. assert (X : y * / y = 1) by (field; lra). assert (Iy : 0 < / y) by (now apply Rinv_0_lt_compat).
  assert (Z : 0 <= (y - 1) * (y - 1) * / y) by (apply Rmult_le_pos; [apply Rle_0_sqr|lra]). replace ((y - 1) * (y - 1) * / y) with (y - 2 + / y) in Z by (field; lra). lra.
Qed.
Lemma arccos_imag_big x : / 10 ^ 12 < arccos_imag x <-> cosh (/ 10 ^ 12) < Rabs x.
Proof.
  unfold arccos_imag. set (e := / 10 ^ 12). assert (E : 0 < e) by (apply Rinv_0_lt_compat; apply pow_lt; lra).
  assert (Ch := cosh_ge_1 e).
  destruct (Rle_dec (Rabs x) 1) as [A|A]; [split; intros; lra|]. rewrite <- (pow2_abs x). set (a := Rabs x) in *. assert (A1 : 1 < a) by lra.
  assert (S0 : 0 < sqrt (a ^ 2 - 1)) by (apply sqrt_lt_R0; nra). assert (SS : sqrt (a ^ 2 - 1) * sqrt (a ^ 2 - 1) = a ^ 2 - 1) by (apply sqrt_sqrt; nra). set (s := sqrt (a ^ 2 - 1)) in *.
  assert (Inv : / (a + s) = a - s) by (apply Rmult_eq_reg_l with (a + s); [rewrite Rinv_r by lra; nra|lra]).
  unfold cosh. rewrite exp_Ropp. assert (Ey : 1 < exp e) by (rewrite <- exp_0; now apply exp_increasing). set (y := exp e) in *.
  assert (Mono : forall u z, 1 < u -> 1 < z -> u < z -> u + / u < z + / z).
  { intros u z Hu Hz H. assert (D : z + / z - (u + / u) = (z - u) * (1 - / (u * z))) by (field; lra). assert (/ (u * z) < 1) by (rewrite <- Rinv_1; apply Rinv_lt_contravar; nra). nra. }
  split; intros H.
  - assert (Hy : y < a + s). { unfold y. rewrite <- (exp_ln (a + s)) by lra. now apply exp_increasing. } assert (X := Mono y (a + s) Ey ltac:(lra) Hy). rewrite Inv in X. lra.
  - destruct (Rlt_dec y (a + s)) as [Hy|Hy]; [rewrite <- (ln_exp e); fold y; apply ln_increasing; lra|exfalso].
    destruct (Req_EM_T y (a + s)) as [->|Ne]; [rewrite Inv in H; lra|]. assert (X := Mono (a + s) y ltac:(lra) Ey ltac:(lra)). rewrite Inv in X. lra.
Qed.
(** With positive energies, a point is rejected exactly when the cosine of the scattering angle is outside [-1, 1] by more than
    cosh(1e-12) - 1 (about 5e-25); in particular never when Q lies between |ki - kf| and ki + kf. *)
Theorem C42_triangle t q w : usable t 1 -> 0 < fst (energies t w) -> 0 < snd (energies t w) ->
  (calc_in_Q t [(q, w)] = Err ScatteringTriangleError <-> cosh (/ 10 ^ 12) < Rabs ((kin t w ^ 2 + kfin t w ^ 2 - q ^ 2) / (2 * kin t w * kfin t w))) /\
  (Rabs (kin t w - kfin t w) <= q <= kin t w + kfin t w -> exists o, calc_in_Q t [(q, w)] = Ok [o]).
Proof.
  intros U Ei Ef. assert (Pi := k_pos _ Ei). assert (Pf := k_pos _ Ef). unfold calc_in_Q. destruct (lengths_ok t _ U) as [Ls [-> L]]. simpl bind. unfold loop.
  assert (Sok : sample_ok t 1) by apply U. destruct (sshapes_ok t 1 0 Sok ltac:(lia)) as [sh [Es _]].
  unfold point. rewrite Es. fold (kin t w) in Pi. fold (kfin t w) in Pf.
  assert (H : forall x, (exists o, (if Rlt_dec (/ 10 ^ 12) (arccos_imag x) then Err ScatteringTriangleError else Ok o) = @Err (loopvars * option (R * mat)) ScatteringTriangleError) <-> cosh (/ 10 ^ 12) < Rabs x).
  { intros x. rewrite <- arccos_imag_big. destruct (Rlt_dec _ _); split; intros; auto; [exists (start t, None); auto|destruct H; discriminate|contradiction]. }
  unfold kin, kfin in *. destruct (energies t w) as [ei ef]. cbn [fst snd] in *. destruct (Rlt_dec 0 ei); [|lra]. destruct (Rlt_dec ef 0); [lra|]. destruct (Req_EM_T (sqrt (ef / CONVERT2)) 0); [lra|].
  cbv zeta. set (ki := sqrt (ei / CONVERT2)) in *. set (kf := sqrt (ef / CONVERT2)) in *. set (x := (ki ^ 2 + kf ^ 2 - q ^ 2) / (2 * ki * kf)). split.
  - rewrite <- arccos_imag_big. destruct (Rlt_dec _ _); cbn [bind]; split; intros; auto; [discriminate|contradiction].
  - intros [T1 T2]. assert (X : ~ / 10 ^ 12 < arccos_imag x).
    { rewrite arccos_imag_big. assert (Rabs x <= 1). { apply Rabs_le. assert (P : 0 < 2 * ki * kf) by nra. assert (E : x * (2 * ki * kf) = ki ^ 2 + kf ^ 2 - q ^ 2) by (unfold x; field; lra). assert (T3 := Rle_abs (ki - kf)). assert (T4 := Rle_abs (- (ki - kf))). rewrite Rabs_Ropp in T4. split; nra. }
      assert (Ch := cosh_ge_1 (/ 10 ^ 12)). lra. }
    destruct (Rlt_dec _ _); [contradiction|]. cbn [bind]. eauto.
Qed.
Print Assumptions C42_triangle.
(** ki = 4 and kf = 3: Q = 7 closes the triangle, Q = 8 does not. *)
Example C42_triangle_ex : let t := case 1 None None None None in let w := 2072 / 1000 * (4 * 4 - 9) in
  calc_in_Q t [(8, w)] = Err ScatteringTriangleError /\ exists o, calc_in_Q t [(7, w)] = Ok [o].
Proof.
  intros t w. assert (U : usable t 1) by (apply case_usable; auto; lra). assert (Ki : kin t w = 4) by (apply case_ki; auto; lra). assert (Kf : kfin t w = 3) by apply case_kf.
  assert (E : 0 < fst (energies t w) /\ 0 < snd (energies t w)) by (unfold energies, t, w; simpl; destruct (Rlt_dec 0 (-1)); simpl; lra). destruct E as [E1 E2]. split.
  - apply (proj1 (C42_triangle t 8 w U E1 E2)). rewrite Ki, Kf. replace ((4 ^ 2 + 3 ^ 2 - 8 ^ 2) / (2 * 4 * 3)) with (- (39 / 24)) by field. rewrite Rabs_Ropp, Rabs_pos_eq by lra.
    assert (Ex : exp (/ 10 ^ 12) <= exp (/ 4)) by (destruct (Rle_lt_or_eq_dec (/ 10 ^ 12) (/ 4) ltac:(lra)) as [X|X]; [left; now apply exp_increasing|rewrite X; lra]).
    assert (En : exp (- / 10 ^ 12) <= 1) by (rewrite <- exp_0; left; apply exp_increasing; lra).
    assert (E4 : exp (/ 4) < 2). { assert (X := exp_le_3). assert (Y : exp (/ 4) * exp (/ 4) * (exp (/ 4) * exp (/ 4)) = exp 1) by (rewrite <- !exp_plus; f_equal; field). assert (Z := exp_pos (/ 4)). destruct (Rlt_dec (exp (/ 4)) 2) as [|N]; auto. assert (4 <= exp (/ 4) * exp (/ 4)) by nra. assert (16 <= exp (/ 4) * exp (/ 4) * (exp (/ 4) * exp (/ 4))) by nra. lra. }
    unfold cosh. lra.
  - apply (proj2 (C42_triangle t 7 w U E1 E2)). rewrite Ki, Kf, Rabs_pos_eq by lra. lra.
Qed.

(** * Mirror image *)
Lemma F2_impl {A B} (P Q : A -> B -> Prop) l m : (forall a b, P a b -> Q a b) -> Forall2 P l m -> Forall2 Q l m.
Proof. induction 2; constructor; auto. Qed.
(** Reversing all three senses of scattering, with the sample seen in the mirror, changes nothing but the sign of the second axis:
    prefactors are equal, and entry (i, j) of the matrices changes sign if exactly one of i, j is the second axis.  This is so for
    every instrument and point, reachable or not, by Cooper and Nathans' method for any number of points; by Popovici's for one. *)
Theorem C42_mirror t points : popovici t = false \/ (List.length points <= 1)%nat ->
  match calc_in_Q t points, calc_in_Q (mirror t) points with
  | Ok rs, Ok rs' => Forall2 (fun o o' => match o, o' with
      | Some (r, M), Some (r', M') => r' = r /\ forall i j, (i < 4)%nat -> (j < 4)%nat -> M' i j = (if Nat.eqb i 1 then -1 else 1) * M i j * (if Nat.eqb j 1 then -1 else 1)
      | None, None => True | _, _ => False end) rs rs'
  | Err e, Err e' => e = e'
  | _, _ => False
  end.
Proof.
  intros H. unfold calc_in_Q. change (lengths (mirror t)) with (lengths t). destruct (lengths t) as [Ls|e]; simpl bind; [|reflexivity].
  assert (X : srel 1 (start t) (start (mirror t))) by (unfold srel; simpl; repeat split; ring).
  assert (Y := mir_loop t Ls points (start t) (start (mirror t)) 1 0 H (or_introl eq_refl) X). unfold rres in Y. destruct (loop t Ls (start t) 0 points) as [rs|e], (loop (mirror t) Ls (start (mirror t)) 0 points) as [rs'|e']; auto.
  eapply F2_impl; [|exact Y]. intros [[r M]|] [[r' M']|] Z; simpl in Z; auto. destruct Z as [Z1 Z2]. simpl in Z1, Z2. split; auto. intros i j Li Lj. rewrite Z2 by auto. unfold conj_by, q4, sg.
  do 4 (destruct i as [|i]; [do 4 (destruct j as [|j]; [reflexivity|]); lia|]). lia.
Qed.
Print Assumptions C42_mirror.
Example C42_mirror_ex : popovici (case 1 (Some (MNum 0)) None None (Some case_shape)) = false /\ (List.length [(3, 0)] <= 1)%nat /\
  s_dir (mirror (case 1 None None None None)) = 1 /\ x_dir (t_mono (mirror (case 1 None None None None))) = -1.
Proof. simpl. repeat split; auto; try lra. Qed.

(** * Wider is coarser *)
Lemma loop_wide t t' Ls n : usable t n -> usable t' n -> wider t t' -> Ls_nz Ls -> forall l v v' ind, vars_ok v -> vars_ok v' -> v_ok v = true -> v_ok v' = true -> vgrow v v' -> (ind + List.length l <= n)%nat -> Forall (reachable t) l ->
  exists rs rs', loop t Ls v ind l = Ok rs /\ loop t' Ls v' ind l = Ok rs' /\ Forall2 (fun o o' => exists r M r' M', o = Some (r, M) /\ o' = Some (r', M') /\ le 4 M' M) rs rs'.
Proof.
  intros U U' W L. induction l as [|[q w] l IH]; intros v v' ind V V' O O' VG Le F; simpl; [eexists _, _; split; [reflexivity|split; [reflexivity|constructor]]|].
  inversion F as [|? ? R F']; subst. simpl in Le. assert (Sok : sample_ok t n) by apply U. assert (Sok' : sample_ok t' n) by apply U'. destruct (le_sshapes t t' n ind W Sok Sok' ltac:(lia)) as (sh & sh' & Es & Es' & Ps & Ps' & Ls').
  assert (Ek : kin t' w = kin t w) by (unfold kin; now rewrite (en_eq t t')). assert (Ef : kfin t' w = kfin t w) by (unfold kfin; now rewrite (en_eq t t')).
  assert (R' : reachable t' (q, w)). { destruct R as (A & B & C & D & E). unfold reachable. rewrite Ek, Ef, (en_eq t t' w W), (gx_tau _ _ (wd_mono _ _ W)), (gx_tau _ _ (wd_ana _ _ W)). auto. }
  assert (Eg : geom_of t' q w = geom_of t q w) by (unfold geom_of; now rewrite Ek, Ef, (gx_tau _ _ (wd_mono _ _ W)), (gx_tau _ _ (wd_ana _ _ W)), (gx_dir _ _ (wd_mono _ _ W)), (gx_dir _ _ (wd_ana _ _ W)), (wd_sdir _ _ W)).
  rewrite (point_reach t Ls v ind q w n sh U Es V O L R), (point_reach t' Ls v' ind q w n sh' U' Es' V' O' L R'). simpl bind.
  assert (Vn := next_ok t v w n U (proj1 R) V). assert (Vn' := next_ok t' v' w n U' (proj1 R') V'). assert (VGn := next_grow t t' v v' w W (proj1 R) VG).
  destruct (IH (next t v w) (next t' v' w) (S ind) Vn Vn' O O' VGn ltac:(lia) F') as (rs & rs' & -> & -> & Frs). eexists _, _. split; [reflexivity|]. split; [reflexivity|]. constructor; auto.
  destruct Ls as [[[[L0 L1] L2] L3] Lm]. destruct L as (N0 & N1 & N2 & N3 & Nm). rewrite Eg. eapply (le_at t t' n); eauto; [now apply geom_ok with n|].
  destruct R as (_ & _ & _ & Ka & _). unfold geom_of. simpl. lra.
Qed.
(** Opening collimators, or enlarging mosaics or pieces, never narrows the resolution in any direction: [x' M' x <= x' M x] for
    every x, so that every ellipsoid [x' M x <= c] lies inside the ellipsoid [x' M' x <= c]. *)
Theorem C42_wider t t' points : usable t (List.length points) -> usable t' (List.length points) -> wider t t' -> Forall (reachable t) points ->
  exists rs rs', calc_in_Q t points = Ok rs /\ calc_in_Q t' points = Ok rs' /\
    Forall2 (fun o o' => exists r M r' M', o = Some (r, M) /\ o' = Some (r', M') /\ forall x, qf 4 M' x <= qf 4 M x) rs rs'.
Proof.
  intros U U' W F. unfold calc_in_Q. destruct (lengths_ok t _ U) as [Ls [E L]]. assert (E' : lengths t' = Ok Ls) by (unfold lengths in *; now rewrite (wd_arms _ _ W), (meth_eq t t' W)). rewrite E, E'. simpl bind.
  destruct (start_ok t _ U), (start_ok t' _ U'). eapply loop_wide; eauto. now apply start_grow.
Qed.
Print Assumptions C42_wider.
Example C42_wider_ex : forall m, wider (case 1 m None (Some 10) None) (case 2 m None (Some 10) None) /\ usable (case 2 m None (Some 10) None) (List.length case_points) /\
  t_hcol (case 1 m None (Some 10) None) 1%nat < t_hcol (case 2 m None (Some 10) None) 1%nat.
Proof. intros m. split; [apply case_wider; lra|]. split; [apply case_usable; auto; lra|]. simpl. lra. Qed.

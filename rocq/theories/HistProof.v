(** Lemmas for C40 and C41. *)
From Coq Require Import String List ZArith Reals Lra Lia Psatz Bool FunctionalExtensionality.
From Verif Require Import Base MatInv TasModel TasProof TasCase.
Import ListNotations.
Local Open Scope R_scope.

(** The coating of a guide as the divergence it has for the wavevector k. *)
Definition coated (k h : R) : R := if Rlt_dec h 0 then - h * 6 * (2 * PI / k) / (427 / 1000) / sqrt 3 else h.
(** The sense of a crystal applied to its radii, 10^6 if not given. *)
Definition resigned (x : crystal) : crystal :=
  mkX (x_tau x) (x_mosaic x) (x_vmosaic x) (x_dir x) (x_width x) (x_height x) (x_depth x)
    (Some (opt (10 ^ 6) (x_rv x) * x_dir x)) (Some (opt (10 ^ 6) (x_rh x) * x_dir x)).
(** The instrument that the points after a point with energy transfer w are calculated for. *)
Definition after (t : tas) (w : R) : tas :=
  let k := kin t w in
  mkTas (t_method t) (t_moncor t) (fun i => coated k (t_hcol t i)) (fun i => coated k (t_vcol t i)) (resigned (t_mono t)) (resigned (t_ana t))
    (t_thickness t) (t_Q t) (t_infin t) (t_efixed t)
    (t_arms t) (t_horifoc t) (t_guide t) (t_monitor t) (t_detector t) (s_dir t) (s_mosaic t) (s_vmosaic t) (s_type t)
    (s_width t) (s_height t) (s_depth t) (match s_shape t with Some (S3 l) => Some (S3 (tl l)) | o => o end).

Lemma guided_scal k a c : 0 < c -> guided k (fun i => a i * c) = fun i => coated k (a i) * c.
Proof.
  intros C. apply functional_extensionality. intros i. unfold guided, coated.
  destruct (Rlt_dec (a i * c) 0), (Rlt_dec (a i) 0); try (exfalso; nra); auto.
  unfold Rdiv. assert (E : / 10 * 60 = 6) by field. rewrite <- E. ring.
Qed.
Lemma guided_at k a b c i : 0 < c -> a i = b * c -> guided k a i = coated k b * c.
Proof. intros C E. assert (X := guided_scal k (fun _ => b) c C). apply (f_equal (fun f => f i)) in X. rewrite <- X. unfold guided. now rewrite E. Qed.
Lemma start_after t w : start (after t w) = next t (start t) w.
Proof.
  unfold start, next. cbn [after t_horifoc t_hcol t_vcol t_mono t_ana resigned x_rh x_rv opt v_alpha v_beta v_mrh v_mrv v_arh v_arv v_ok]. assert (C := C1_pos).
  assert (S : 0 < sqrt (8 * ln 2 / 12)). { apply sqrt_lt_R0. assert (0 < ln 2) by (rewrite <- ln_1; apply ln_increasing; lra). lra. }
  f_equal.
  - apply functional_extensionality. intros i. symmetry. change (horifoc (after t w)) with (horifoc t). destruct (Z.eqb (horifoc t) 1 && Nat.eqb i 2)%bool eqn:E.
    + rewrite Rmult_assoc. apply guided_at; [nra|]. rewrite E. ring.
    + apply guided_at; auto. now rewrite E.
  - symmetry. now apply guided_scal.
Qed.
Lemma sshapes_after t w ind : sshapes (after t w) ind = sshapes t (S ind).
Proof.
  unfold sshapes, factor. cbn [after s_width s_depth s_height s_shape s_type]. destruct (s_width t), (s_depth t), (s_height t); auto; destruct (s_shape t) as [[m|[|m l]]|]; cbn [tl nth_error]; auto; destruct ind; auto.
Qed.
Lemma at_after t w v Ls g sh : resolution_at (after t w) v Ls g sh = resolution_at t v Ls g sh.
Proof. reflexivity. Qed.
Lemma point_after t w Ls v ind q w' : point (after t w) Ls v ind q w' = point t Ls v (S ind) q w'.
Proof. unfold point. rewrite sshapes_after. reflexivity. Qed.
Lemma loop_after t w Ls : forall l v ind, loop (after t w) Ls v ind l = loop t Ls v (S ind) l.
Proof.
  induction l as [|[q w'] l IH]; intros v ind; cbn [loop]; auto. rewrite point_after. destruct (point t Ls v (S ind) q w') as [[v' x]|e]; cbn [bind]; auto. now rewrite IH.
Qed.
Lemma point_next t Ls v ind q w v' x : 0 < fst (energies t w) -> point t Ls v ind q w = Ok (v', x) -> v' = next t v w.
Proof.
  intros E. unfold point, next, kin. destruct (sshapes t ind); [|discriminate]. destruct (energies t w) as [ei ef]. cbn [fst] in *. destruct (Rlt_dec 0 ei); [|lra].
  destruct (Rlt_dec ef 0); [intros H; injection H as <- _; reflexivity|]. destruct (Req_EM_T (sqrt (ef / CONVERT2)) 0).
  - destruct (Req_EM_T _ _); [|discriminate]. intros H; injection H as <- _; reflexivity.
  - destruct (Rlt_dec _ _); [discriminate|]. intros H; injection H as <- _; reflexivity.
Qed.

(** * Loop variables that give the same results *)
Definition sim (t : tas) (v v' : loopvars) : Prop :=
  (forall i, (i < 4)%nat -> v_alpha v i = v_alpha v' i /\ v_beta v i = v_beta v' i) /\ v_ok v = v_ok v' /\
  let r x y := if popovici t then x = y else (x = 0 <-> y = 0) in
  r (v_mrh v) (v_mrh v') /\ r (v_mrv v) (v_mrv v') /\ r (v_arh v) (v_arh v') /\ r (v_arv v) (v_arv v').
Lemma any_neg_ext a b : (forall i, (i < 4)%nat -> a i = b i) -> any_negative a = any_negative b.
Proof. intros H. unfold any_negative. cbn [seq existsb]. now rewrite !H by lia. Qed.
Lemma sim_at t v v' Ls g sh : sim t v v' -> resolution_at t v Ls g sh = resolution_at t v' Ls g sh.
Proof.
  intros (A & O & H). assert (G : Gm v = Gm v') by (unfold Gm; rewrite !(fun i L => proj1 (A i L)), !(fun i L => proj2 (A i L)) by lia; reflexivity).
  assert (Rf : forall KT KQ, reflectivity t v g KT KQ = reflectivity t v' g KT KQ) by (intros; unfold reflectivity; rewrite !(fun i L => proj1 (A i L)) by lia; reflexivity).
  assert (Fo : forall N, focused t v g N = focused t v' g N) by (intros; unfold focused; rewrite !(fun i L => proj1 (A i L)) by lia; reflexivity).
  destruct Ls as [[[[L0 L1] L2] L3] Lm]. unfold resolution_at.
  assert (N : Ninv t v (L0, L1, L2, L3) g sh = Ninv t v' (L0, L1, L2, L3) g sh /\ forall X Y, prefactor t v L0 Lm g X Y = prefactor t v' L0 Lm g X Y).
  { destruct (popovici t) eqn:P.
    - destruct H as (R1 & R2 & R3 & R4). assert (T : Tm L0 L1 L2 L3 v g = Tm L0 L1 L2 L3 v' g) by (unfold Tm; now rewrite R1, R2, R3, R4). split.
      + unfold Ninv, HG_popovici. now rewrite P, T, G.
      + intros X Y. unfold prefactor, Rmon. now rewrite P, G, R1, R2.
    - split; [unfold Ninv, H_cooper; rewrite P, G; destruct (minv 8 _); cbn [ob]; auto; destruct (Z.ltb 0 (horifoc t)); auto; destruct (minv 6 _); cbn [ob]; auto; now rewrite Fo|intros X Y; unfold prefactor, Rmon; now rewrite P, G]. }
  destruct N as [N1 N2]. rewrite N1. destruct (minv 13 _); cbn [ob]; auto. destruct (Ninv t v' _ g sh) as [[N HG]|]; cbn [ob]; auto. destruct (minv 4 _); cbn [ob]; auto. rewrite N2.
  destruct (prefactor t v' _ _ _ _ _); cbn [ob]; auto. destruct (with_mosaic _ _ _ _ _) as [[r0 M]|]; cbn [ob]; auto. destruct (t_thickness t), (t_Q t); auto. now rewrite Rf.
Qed.
Lemma sim_nonzero t v v' Ls : sim t v v' -> nonzero t v Ls = nonzero t v' Ls.
Proof.
  intros (A & O & H). unfold nonzero. destruct Ls as [[[[L0 L1] L2] L3] Lm]. cbn [map seq app forallb]. rewrite !(fun i L => proj1 (A i L)), !(fun i L => proj2 (A i L)) by lia.
  assert (Z : forall x y, (if popovici t then x = y else (x = 0 <-> y = 0)) -> (if Req_EM_T x 0 then false else true) = (if Req_EM_T y 0 then false else true)).
  { intros x y K. destruct (Req_EM_T x 0), (Req_EM_T y 0); auto; destruct (popovici t); subst; tauto. }
  destruct H as (R1 & R2 & R3 & R4). now rewrite (Z _ _ R1), (Z _ _ R2), (Z _ _ R3), (Z _ _ R4).
Qed.
Lemma sim_scal t x y s : (if popovici t then x = y else (x = 0 <-> y = 0)) -> (if popovici t then x * s = y * s else (x * s = 0 <-> y * s = 0)).
Proof. destruct (popovici t); [now intros ->|]. intros H. split; intros K; apply Rmult_integral in K; destruct K as [K|K]; try (rewrite K; ring); rewrite (proj1 H K) || rewrite (proj2 H K); ring. Qed.
Lemma sim_point t Ls v v' i j q w : sshapes t i = sshapes t j -> sim t v v' ->
  match point t Ls v i q w, point t Ls v' j q w with
  | Ok (u, x), Ok (u', x') => x = x' /\ sim t u u'
  | Err e, Err e' => e = e'
  | _, _ => False
  end.
Proof.
  intros S M. assert (M0 := M). destruct M as (A & O & H). unfold point. rewrite S. destruct (sshapes t j) as [sh|]; [|reflexivity]. destruct (energies t w) as [ei ef].
  set (sm := x_dir (t_mono t)). set (sa := x_dir (t_ana t)).
  assert (Radii : forall a b ok a' b' ok', (forall i, (i < 4)%nat -> a i = a' i /\ b i = b' i) -> ok = ok' ->
    sim t (mkV a b (v_mrh v * sm) (v_mrv v * sm) (v_arh v * sa) (v_arv v * sa) ok) (mkV a' b' (v_mrh v' * sm) (v_mrv v' * sm) (v_arh v' * sa) (v_arv v' * sa) ok')).
  { intros a b ok a' b' ok' E1 E2. split; [exact E1|]. split; [exact E2|]. cbn [v_mrh v_mrv v_arh v_arv]. destruct H as (R1 & R2 & R3 & R4). split; [|split; [|split]]; now apply sim_scal. }
  assert (Gd : forall k i, (i < 4)%nat -> guided k (v_alpha v) i = guided k (v_alpha v') i /\ guided k (v_beta v) i = guided k (v_beta v') i).
  { intros k n L. unfold guided. destruct (A n L) as [-> ->]. auto. }
  destruct (Rlt_dec 0 ei).
  - set (ki := sqrt (ei / CONVERT2)). assert (U := Radii _ _ _ _ _ _ (Gd ki) O). destruct (Rlt_dec ef 0); [auto|]. destruct (Req_EM_T (sqrt (ef / CONVERT2)) 0); [destruct (Req_EM_T _ _); auto|]. destruct (Rlt_dec _ _); [auto|].
    split; [|exact U]. rewrite (sim_nonzero _ _ _ _ U). rewrite O in U |- *. destruct (_ && _)%bool; auto. apply sim_at; exact U.
  - destruct (if Req_EM_T ei 0 then _ else _); auto. split; auto. apply Radii; auto. rewrite O. f_equal. rewrite (any_neg_ext (v_alpha v) (v_alpha v')), (any_neg_ext (v_beta v) (v_beta v')); auto; intros; now apply A.
Qed.
Lemma sim_loop t Ls : forall l v v' i j, (forall n, sshapes t (n + i) = sshapes t (n + j)) -> sim t v v' -> loop t Ls v i l = loop t Ls v' j l.
Proof.
  induction l as [|[q w] l IH]; intros v v' i j S M; cbn [loop]; auto. assert (P := sim_point t Ls v v' i j q w (S 0%nat) M).
  destruct (point t Ls v i q w) as [[u x]|e], (point t Ls v' j q w) as [[u' x']|e']; try contradiction; cbn [bind]; [|now rewrite P]. destruct P as [-> P]. rewrite (IH u u' (Datatypes.S i) (Datatypes.S j)); auto.
  intros n. rewrite !Nat.add_succ_r. apply (S (Datatypes.S n)).
Qed.
Lemma sim_refl t v : sim t v v.
Proof. split; [auto|]. split; [auto|]. destruct (popovici t); repeat split; auto. Qed.
(** Nothing in the instrument depends on the points before. *)
Definition steady (t : tas) : Prop :=
  (forall i, (i < 4)%nat -> 0 <= t_hcol t i /\ 0 <= t_vcol t i) /\
  (if popovici t then x_dir (t_mono t) = 1 /\ x_dir (t_ana t) = 1 else x_dir (t_mono t) <> 0 /\ x_dir (t_ana t) <> 0) /\
  (s_width t <> None /\ s_depth t <> None /\ s_height t <> None \/ match s_shape t with Some (S3 _) => False | _ => True end).
Lemma steady_sshapes t i j : steady t -> sshapes t i = sshapes t j.
Proof.
  intros (_ & _ & H). unfold sshapes. destruct (s_width t), (s_depth t), (s_height t); auto; destruct (s_shape t) as [[m|l]|]; auto; destruct H as [(A & B & C)|[]]; congruence.
Qed.
Lemma steady_next t w : steady t -> sim t (next t (start t) w) (start t).
Proof.
  intros (C & D & _). assert (P := C1_pos). split; [|split; [reflexivity|]].
  - intros i L. destruct (C i L) as [C1 C2]. unfold next, start. cbn [v_alpha v_beta]. unfold guided. split.
    + destruct (_ && _)%bool; destruct (Rlt_dec _ 0) as [X|X]; auto; exfalso; revert X; apply Rle_not_lt; [|nra]. apply Rmult_le_pos; [nra|]. apply sqrt_pos.
    + destruct (Rlt_dec _ 0) as [X|X]; auto. exfalso. nra.
  - unfold next. cbn [v_mrh v_mrv v_arh v_arv]. destruct (popovici t); destruct D as [D1 D2].
    + rewrite D1, D2, !Rmult_1_r. auto.
    + repeat split; intros H; try (rewrite H; ring); apply Rmult_integral in H; tauto.
Qed.

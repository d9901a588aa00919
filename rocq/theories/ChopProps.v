(** C46, C52, C67: choppers, goniometers and guides. *)
From Coq Require Import String List ZArith Reals Lra Lia Psatz.
From Verif Require Import Base LinAlg EnergyModel LatticeModel ToolsModel CompModel.
Import ListNotations.
Local Open Scope R_scope.

(** ** C46: the opening time of a chopper *)
(** A given time resolution wins, whatever else the chopper says, an unknown kind included. *)
Theorem C46_override c t : ch_tau c = Some t -> tau c = Ok (Fin t).
Proof. intros H. unfold tau. rewrite H. reflexivity. Qed.
Print Assumptions C46_override.

(** A chopper of each kind with numbers. *)
Definition disk (distance speed width : R) (a : R) (two : bool) (r : option R) : chopper :=
  mkChop distance speed width (Str "disk") (Num a) two r None None.
Definition fermi (distance speed width : R) (a : R) (two : bool) (d : R) : chopper :=
  mkChop distance speed width (Str "fermi") (Num a) two None (Some d) None.
(** The microseconds in which a shaft turning [s] times per second makes the part [f] of a turn. *)
Definition turning (s f : R) : R := f / s * 10 ^ 6.
Definition fwhm_per_sigma : R := sqrt (8 * ln 2).
Lemma fwhm_pos : 0 < fwhm_per_sigma.
Proof. unfold fwhm_per_sigma. apply sqrt_lt_R0. pose proof ln_lt_2. lra. Qed.

Lemma atan_pos x : 0 < x -> 0 < atan x.
Proof. intros H. rewrite <- atan_0. apply atan_increasing. exact H. Qed.
Lemma atan_nz x : atan x = 0 -> x = 0.
Proof. intros H. rewrite <- (tan_atan x), H. apply tan_0. Qed.

(** The value in terms of the time the opening takes to pass.  With a radius it is the standard deviation of that time
    divided by 10^6/2pi; without, the time divided by the square of the opening in degrees; of a Fermi chopper the time for
    the acceptance angle taken in radians as if it were degrees, divided by its square, whether or not it is a counter rotating pair. *)
Theorem C46_value L s w a : 0 < s -> 0 < a ->
  (forall n r, 0 < r -> tau (disk L s w a n (Some r)) = Ok (Fin (turning s (a / (2 * PI * r)) / (if n then 2 else 1) / fwhm_per_sigma * (2 * PI / 10 ^ 6)))) /\
  (forall n, tau (disk L s w a n None) = Ok (Fin (turning s (a / 360) / (if n then 2 else 1) / a ^ 2))) /\
  (forall n d, 0 < d -> tau (fermi L s w a n d) = Ok (Fin (turning s (2 * atan (a / d) / 360) / (2 * atan (a / d)) ^ 2))).
Proof.
  intros Hs Ha. pose proof PI_RGT_0 as HP. pose proof fwhm_pos as HF. split; [|split].
  - intros n r Hr. unfold tau, disk. cbn. unfold fdiv, counter. cbn.
    assert (Hn : (if n then 2 else 1) > 0) by (destruct n; lra). set (m := if n then 2 else 1) in *.
    destruct (Req_EM_T (r * s * m) 0) as [E|E]; [exfalso; assert (0 < r * s * m) by (apply Rmult_lt_0_compat; nra); lra|].
    cbn. f_equal. f_equal. fold fwhm_per_sigma. unfold turning. field. repeat split; lra.
  - intros n. unfold tau, disk. cbn. unfold fdiv, counter. cbn.
    assert (Hn : (if n then 2 else 1) > 0) by (destruct n; lra). set (m := if n then 2 else 1) in *.
    destruct (Req_EM_T (s * a * m) 0) as [E|E]; [exfalso; assert (0 < s * a * m) by (apply Rmult_lt_0_compat; nra); lra|].
    cbn. f_equal. f_equal. unfold turning. field. repeat split; lra.
  - intros n d Hd. unfold tau, fermi. cbn. unfold fdiv. destruct (Req_EM_T d 0) as [E|_]; [lra|]. cbn.
    assert (A : 0 < atan (a / d)) by (apply atan_pos, Rdiv_lt_0_compat; assumption).
    destruct (Req_EM_T (s * 2 * atan (a / d)) 0) as [E|E]; [exfalso; assert (0 < s * 2 * atan (a / d)) by (apply Rmult_lt_0_compat; lra); lra|].
    f_equal. f_equal. unfold turning. field. split; lra.
Qed.
Print Assumptions C46_value.

(** That the time is that of the opening passing is true of none of them in general: for openings of two degrees, of two
    centimetres at radius one, and of a Fermi chopper with slits as wide as deep. *)
Theorem C46_time_refuted : exists s a, 0 < s /\ 0 < a /\
  tau (disk 0 s 0 a false None) <> Ok (Fin (turning s (a / 360))) /\
  tau (disk 0 s 0 a false (Some 1)) <> Ok (Fin (turning s (a / (2 * PI * 1)) / fwhm_per_sigma)) /\
  tau (fermi 0 s 0 a false a) <> Ok (Fin (turning s (2 * atan (a / a) / (2 * PI)))).
Proof.
  exists 1, 2. split; [lra|]. split; [lra|]. destruct (C46_value 0 1 0 2) as (A & B & C); [lra|lra|].
  pose proof PI_RGT_0 as HP. pose proof PI_4 as HP4. pose proof fwhm_pos as HF. split; [|split].
  - rewrite B. intros H. apply (f_equal (fun x => match x with Ok (Fin r) => r | _ => 0 end)) in H. cbn [tau] in H. unfold turning in H. lra.
  - rewrite A by lra. intros H. apply (f_equal (fun x => match x with Ok (Fin r) => r | _ => 0 end)) in H.
    set (X := turning 1 (2 / (2 * PI * 1)) / fwhm_per_sigma) in *.
    assert (PX : 0 < X). { unfold X, turning. apply Rdiv_lt_0_compat; [|exact HF]. apply Rmult_lt_0_compat; [|lra]. apply Rdiv_lt_0_compat; [|lra]. apply Rdiv_lt_0_compat; lra. }
    replace (turning 1 (2 / (2 * PI * 1)) / 1 / fwhm_per_sigma * (2 * PI / 10 ^ 6)) with (X * (2 * PI / 10 ^ 6)) in H by (unfold X; field; lra).
    assert (2 * PI / 10 ^ 6 = 1) by (apply (Rmult_eq_reg_l X); [rewrite Rmult_1_r; exact H|lra]). lra.
  - rewrite C by lra. intros H. apply (f_equal (fun x => match x with Ok (Fin r) => r | _ => 0 end)) in H.
    replace (2 / 2) with 1 in H by field. rewrite atan_1 in H. unfold turning in H.
    assert (K : 2 * (PI / 4) / (2 * PI) = 1 / 4) by (field; lra). rewrite K in H.
    replace (2 * (PI / 4) / 360 / 1 * 10 ^ 6 / (2 * (PI / 4)) ^ 2) with (10 ^ 6 / 180 / PI) in H by (field; lra).
    apply (Rmult_eq_compat_r PI) in H. replace (10 ^ 6 / 180 / PI * PI) with (10 ^ 6 / 180) in H by (field; lra).
    pose proof PI2_3_2. unfold PI2 in *. lra.
Qed.
Print Assumptions C46_time_refuted.

(** Positive for positive speed, opening and radius or depth, and inversely proportional to the speed. *)
Theorem C46_speed c a : ch_tau c = None -> ch_accept c = Num a -> 0 < a -> 0 < ch_speed c ->
  (forall r, ch_radius c = Some r -> 0 < r) -> (forall d, ch_depth c = Some d -> 0 < d) ->
  (ch_type c = Str "disk" \/ ch_type c = Str "fermi" /\ ch_depth c <> None) ->
  exists t, 0 < t /\ tau c = Ok (Fin t) /\
    forall k, 0 < k -> tau (mkChop (ch_distance c) (k * ch_speed c) (ch_width c) (ch_type c) (ch_accept c) (ch_counter c) (ch_radius c) (ch_depth c) None) = Ok (Fin (t / k)).
Proof.
  destruct c as [L s w ty ac n r d t]. cbn. intros -> -> Ha Hs Hr Hd Ht. pose proof fwhm_pos as HF. unfold fwhm_per_sigma in HF.
  assert (Hn : (if n then 2 else 1) > 0) by (destruct n; lra).
  destruct Ht as [->|[-> Dn]].
  - destruct r as [r|].
    + specialize (Hr r eq_refl). unfold tau. cbn. unfold fdiv, counter. cbn. set (m := if n then 2 else 1) in *.
      assert (P : 0 < r * s * m) by (apply Rmult_lt_0_compat; nra).
      destruct (Req_EM_T (r * s * m) 0) as [E|E]; [lra|]. cbn. exists (a / (r * s * m) / sqrt (8 * ln 2)).
      split; [apply Rdiv_lt_0_compat; [apply Rdiv_lt_0_compat|]; assumption|]. split; [reflexivity|]. intros k Hk.
      destruct (Req_EM_T (r * (k * s) * m) 0) as [E'|E']; [exfalso; replace (r * (k * s) * m) with (k * (r * s * m)) in E' by ring; apply Rmult_integral in E'; lra|].
      cbn. f_equal. f_equal. field. repeat split; lra.
    + unfold tau. cbn. unfold fdiv, counter. cbn. set (m := if n then 2 else 1) in *.
      assert (P : 0 < s * a * m) by (apply Rmult_lt_0_compat; nra).
      destruct (Req_EM_T (s * a * m) 0) as [E|E]; [lra|]. cbn. exists (10 ^ 6 / (s * a * m) / 360).
      split; [apply Rdiv_lt_0_compat; [apply Rdiv_lt_0_compat; [lra|assumption]|lra]|]. split; [f_equal; f_equal; cbn; field; lra|]. intros k Hk.
      destruct (Req_EM_T (k * s * a * m) 0) as [E'|E']; [exfalso; replace (k * s * a * m) with (k * (s * a * m)) in E' by ring; apply Rmult_integral in E'; lra|].
      cbn. f_equal. f_equal. field. repeat split; lra.
  - destruct d as [d|]; [|congruence]. specialize (Hd d eq_refl). unfold tau. cbn. unfold fdiv. destruct (Req_EM_T d 0) as [E|_]; [lra|]. cbn.
    assert (A : 0 < atan (a / d)) by (apply atan_pos, Rdiv_lt_0_compat; assumption). set (x := atan (a / d)) in *.
    assert (P : 0 < s * 2 * x) by (apply Rmult_lt_0_compat; lra).
    destruct (Req_EM_T (s * 2 * x) 0) as [E|E]; [lra|]. exists (10 ^ 6 / (s * 2 * x) / 360).
    split; [apply Rdiv_lt_0_compat; [apply Rdiv_lt_0_compat; [lra|assumption]|lra]|]. split; [f_equal; f_equal; cbn; field; lra|]. intros k Hk.
    destruct (Req_EM_T (k * s * 2 * x) 0) as [E'|E']; [exfalso; replace (k * s * 2 * x) with (k * (s * 2 * x)) in E' by ring; apply Rmult_integral in E'; lra|].
    f_equal. f_equal. field. repeat split; lra.
Qed.
Print Assumptions C46_speed.

Example C46_speed_case : let c := fermi 500 300 1 2 false 4 in ch_tau c = None /\ ch_accept c = Num 2 /\ 0 < ch_speed c /\
  (forall r, ch_radius c = Some r -> 0 < r) /\ (forall d, ch_depth c = Some d -> 0 < d) /\ ch_type c = Str "fermi" /\ ch_depth c <> None.
Proof. cbn. repeat split; try lra; try discriminate. intros d H. injection H as <-. lra. Qed.

(** A wider opening lengthens the time only of a disk with a radius; otherwise it shortens it. *)
Theorem C46_opening L s w n a a' : 0 < s -> 0 < a -> a < a' ->
  (forall r, 0 < r -> exists t t', tau (disk L s w a n (Some r)) = Ok (Fin t) /\ tau (disk L s w a' n (Some r)) = Ok (Fin t') /\ t < t') /\
  (exists t t', tau (disk L s w a n None) = Ok (Fin t) /\ tau (disk L s w a' n None) = Ok (Fin t') /\ t' < t) /\
  (forall d, 0 < d -> exists t t', tau (fermi L s w a n d) = Ok (Fin t) /\ tau (fermi L s w a' n d) = Ok (Fin t') /\ t' < t).
Proof.
  intros Hs Ha Haa. destruct (C46_value L s w a Hs Ha) as (A & B & C). destruct (C46_value L s w a' Hs) as (A' & B' & C'); [lra|].
  pose proof PI_RGT_0 as HP. pose proof fwhm_pos as HF. assert (Hn : (if n then 2 else 1) > 0) by (destruct n; lra). split; [|split].
  - intros r Hr. eexists. eexists. split; [apply A; exact Hr|]. split; [apply A'; exact Hr|]. set (m := if n then 2 else 1) in *. unfold turning.
    replace (a / (2 * PI * r) / s * 10 ^ 6 / m / fwhm_per_sigma * (2 * PI / 10 ^ 6)) with (a * / (r * s * m * fwhm_per_sigma)) by (field; repeat split; lra).
    replace (a' / (2 * PI * r) / s * 10 ^ 6 / m / fwhm_per_sigma * (2 * PI / 10 ^ 6)) with (a' * / (r * s * m * fwhm_per_sigma)) by (field; repeat split; lra).
    apply Rmult_lt_compat_r; [|exact Haa]. apply Rinv_0_lt_compat. repeat apply Rmult_lt_0_compat; lra.
  - eexists. eexists. split; [apply B|]. split; [apply B'|]. set (m := if n then 2 else 1) in *. unfold turning.
    replace (a / 360 / s * 10 ^ 6 / m / a ^ 2) with (10 ^ 6 / (360 * s * m) * / a) by (field; repeat split; lra).
    replace (a' / 360 / s * 10 ^ 6 / m / a' ^ 2) with (10 ^ 6 / (360 * s * m) * / a') by (field; repeat split; lra).
    apply Rmult_lt_compat_l; [apply Rdiv_lt_0_compat; [lra|repeat apply Rmult_lt_0_compat; lra]|]. apply Rinv_lt_contravar; [nra|exact Haa].
  - intros d Hd. eexists. eexists. split; [apply C; exact Hd|]. split; [apply C'; exact Hd|]. unfold turning.
    assert (X : 0 < atan (a / d)) by (apply atan_pos, Rdiv_lt_0_compat; assumption).
    assert (Y : atan (a / d) < atan (a' / d)). { apply atan_increasing. apply Rmult_lt_compat_r; [apply Rinv_0_lt_compat; exact Hd|exact Haa]. }
    set (x := atan (a / d)) in *. set (y := atan (a' / d)) in *.
    replace (2 * x / 360 / s * 10 ^ 6 / (2 * x) ^ 2) with (10 ^ 6 / (720 * s) * / x) by (field; repeat split; lra).
    replace (2 * y / 360 / s * 10 ^ 6 / (2 * y) ^ 2) with (10 ^ 6 / (720 * s) * / y) by (field; repeat split; lra).
    apply Rmult_lt_compat_l; [apply Rdiv_lt_0_compat; lra|]. apply Rinv_lt_contravar; [nra|exact Y].
Qed.
Print Assumptions C46_opening.

(** When there is no time: an unknown kind or a Fermi chopper without depth raise ChopperError, and nothing else does. *)
Theorem C46_error c : tau c = Err ChopperError <->
  ch_tau c = None /\ (ch_type c <> Str "disk" /\ ch_type c <> Str "fermi" \/ ch_type c = Str "fermi" /\ ch_depth c = None).
Proof.
  assert (ty : forall v s, is_type v s = true <-> v = Str s).
  { intros v s. destruct v; cbn; try (split; congruence). rewrite String.eqb_eq. split; [intros ->; reflexivity|congruence]. }
  assert (nt : forall v s, is_type v s = false -> v <> Str s) by (intros v s H E; apply ty in E; congruence).
  destruct c as [L s w v ac n r d t]. unfold tau. cbn [ch_tau ch_type ch_depth ch_radius ch_accept ch_speed].
  destruct t as [t|]; [split; [discriminate|intros [H _]; discriminate]|].
  destruct (is_type v "disk") eqn:D.
  - pose proof D as D'. apply ty in D'. subst v. split.
    + destruct r, ac; cbn; unfold fdiv; try discriminate; destruct (Req_EM_T _ _); cbn; discriminate.
    + intros [_ [[H _]|[H _]]]; [congruence|discriminate].
  - destruct (is_type v "fermi") eqn:F.
    + pose proof F as F'. apply ty in F'. subst v. destruct d as [d|].
      * split; [destruct ac; cbn; unfold fdiv; try discriminate; destruct (Req_EM_T d 0); cbn; discriminate|].
        intros [_ [[_ H]|[_ H]]]; congruence.
      * split; [intros _|reflexivity]. split; [reflexivity|]. right. split; reflexivity.
    + split; [intros _|reflexivity]. split; [reflexivity|]. left. split; apply nt; assumption.
Qed.
Print Assumptions C46_error.
(** A chopper at rest, a disk of no radius, one without radius and opening, and a Fermi chopper of no depth: ZeroDivisionError, and for nothing else.  A Fermi chopper at rest has an infinite time instead. *)
Theorem C46_zero : forall L s w ty a n r d, let c := mkChop L s w ty (Num a) n r d None in
  (tau c = Err ZeroDivisionError <-> (ty = Str "disk" /\ (s = 0 \/ match r with Some r => r = 0 | None => a = 0 end)) \/ (ty = Str "fermi" /\ d = Some 0)) /\
  (tau c = Ok Inf <-> ty = Str "fermi" /\ exists d', d = Some d' /\ d' <> 0 /\ (s = 0 \/ a = 0)).
Proof.
  intros L s w ty a n r d c. assert (T : forall v t, is_type v t = true <-> v = Str t). { intros v t. destruct v; cbn; try (split; congruence). rewrite String.eqb_eq. split; [intros ->; reflexivity|congruence]. }
  unfold tau, c. cbn [ch_tau ch_type ch_depth ch_radius ch_accept ch_speed as_num bind]. assert (m0 : counter (mkChop L s w ty (Num a) n r d None) <> 0) by (unfold counter; cbn; destruct n; lra). set (m := counter _) in *.
  destruct (is_type ty "disk") eqn:D.
  - apply T in D. subst ty. destruct r as [r|]; unfold fdiv; destruct (Req_EM_T _ 0) as [E|E]; cbn [bind].
    + split; [split; [intros _|reflexivity]|split; [discriminate|intros [? _]; discriminate]]. left. split; [reflexivity|]. apply Rmult_integral in E. destruct E as [E|E]; [|contradiction]. apply Rmult_integral in E. tauto.
    + split; [split; [discriminate|]|split; [discriminate|intros [? _]; discriminate]]. intros [[_ [H|H]]|[H _]]; [| |discriminate]; exfalso; apply E; rewrite H; ring.
    + split; [split; [intros _|reflexivity]|split; [discriminate|intros [? _]; discriminate]]. left. split; [reflexivity|]. apply Rmult_integral in E. destruct E as [E|E]; [|contradiction]. apply Rmult_integral in E. tauto.
    + split; [split; [discriminate|]|split; [discriminate|intros [? _]; discriminate]]. intros [[_ [H|H]]|[H _]]; [| |discriminate]; exfalso; apply E; rewrite H; ring.
  - assert (ND : ty <> Str "disk") by (intros E; apply T in E; congruence). destruct (is_type ty "fermi") eqn:F.
    + apply T in F. subst ty. destruct d as [d|]; [|split; [split; [discriminate|intros [[? _]|[_ ?]]; discriminate]|split; [discriminate|intros (_ & ? & ? & _); discriminate]]].
      unfold fdiv. destruct (Req_EM_T d 0) as [->|E]; cbn [bind].
      * split; [split; [intros _; right; auto|reflexivity]|]. split; [discriminate|]. intros (_ & d' & H & N & _). injection H as <-. contradiction.
      * split; [split; [destruct (Req_EM_T _ _); discriminate|]|].
        -- intros [[H _]|[_ H]]; [discriminate|]. injection H as ->. contradiction.
        -- destruct (Req_EM_T (s * 2 * atan (a / d)) 0) as [Z|Z].
           ++ split; [intros _|reflexivity]. split; [reflexivity|]. exists d. split; [reflexivity|]. split; [exact E|]. apply Rmult_integral in Z. destruct Z as [Z|Z]; [left; lra|right]. assert (A0 : a / d = 0) by (rewrite <- (tan_atan (a / d)), Z; apply tan_0). apply Rmult_eq_reg_r with (/ d); [unfold Rdiv in A0; rewrite A0; ring|apply Rinv_neq_0_compat, E].
           ++ split; [discriminate|]. intros (_ & d' & H & _ & [-> | ->]); exfalso; apply Z; [ring|]. unfold Rdiv. rewrite Rmult_0_l, atan_0. ring.
    + assert (NF : ty <> Str "fermi") by (intros E; apply T in E; congruence). split; split; try discriminate; [intros [[H _]|[H _]]; contradiction|intros [H _]; contradiction].
Qed.
Print Assumptions C46_zero.
Example C46_zero_case : tau (mkChop 5 0 1 (Str "disk") (Num 2) true (Some 10) None None) = Err ZeroDivisionError /\ tau (mkChop 5 0 1 (Str "fermi") (Num 2) true None (Some 3) None) = Ok Inf.
Proof. split; apply C46_zero; [left; auto|]. split; [reflexivity|]. exists 3. split; [reflexivity|]. split; [lra|now left]. Qed.

(** A chopper cannot be printed: the representation raises for every chopper. *)
Theorem C46_repr c : exists e, chopper_repr c = Err e.
Proof.
  unfold chopper_repr. destruct (ch_depth c) eqn:D; [eauto|]. destruct (tau c) as [x|e] eqn:T; [eauto|].
  destruct e; eauto. exfalso. unfold tau in T. rewrite D in T.
  destruct (ch_tau c); [discriminate|]. destruct (is_type (ch_type c) "disk").
  - destruct (ch_radius c), (ch_accept c); cbn in T; unfold fdiv in T; try discriminate; destruct (Req_EM_T _ _); discriminate.
  - destruct (is_type (ch_type c) "fermi"); discriminate.
Qed.
Print Assumptions C46_repr.

(** ** C67: guides *)
Lemma asin_incr p q : -1 <= p -> q <= 1 -> p < q -> asin p < asin q.
Proof.
  intros Hp Hq L. destruct (Rlt_le_dec (asin p) (asin q)) as [H|H]; [exact H|exfalso].
  pose proof (asin_bound p). pose proof (asin_bound q). assert (sin (asin q) <= sin (asin p)) by (apply sin_incr_1; lra).
  rewrite !sin_asin in H2 by lra. lra.
Qed.
Lemma small_angle : 0 < sin (203 / 100000) < 1.
Proof.
  split; [apply sin_gt_0; [lra|pose proof PI2_3_2; unfold PI2 in *; lra]|].
  assert (sin (203 / 100000) < 203 / 100000) by (apply sin_lt_x; lra). lra.
Qed.
(** The path length uncertainty is never negative, vanishes only for a guide without cross-section, and is at most the square of
    the diagonal over twice the length. *)
Theorem C67_length m l w h : 0 < l ->
  0 <= sigma_l (mkGuide m l w h) <= (w ^ 2 + h ^ 2) / (2 * l) /\ (sigma_l (mkGuide m l w h) = 0 <-> w = 0 /\ h = 0).
Proof.
  intros L. unfold sigma_l. cbn [gu_length gu_width gu_height]. set (X := l ^ 2 + w ^ 2 + h ^ 2).
  assert (PX : 0 <= X) by (unfold X; nra). pose proof (sqrt_pos X) as P. pose proof (sqrt_sqrt X PX) as Q. split; [split|].
  - destruct (Rlt_le_dec (sqrt X) l) as [H|H]; [|lra]. exfalso. assert (sqrt X * sqrt X < l * l) by nra. unfold X in *. nra.
  - apply (Rmult_le_reg_r (2 * l)); [lra|]. replace ((w ^ 2 + h ^ 2) / (2 * l) * (2 * l)) with (w ^ 2 + h ^ 2) by (field; lra).
    unfold X in *. nra.
  - split.
    + intros H. assert (E : sqrt X = l) by lra. rewrite E in Q. unfold X in Q. split; nra.
    + intros [-> ->]. unfold X. replace (l ^ 2 + 0 ^ 2 + 0 ^ 2) with (l * l) by ring. rewrite sqrt_square by lra. lra.
Qed.
Print Assumptions C67_length.

(** The divergence is that of natural nickel for m = 1, grows with m, and its sine as the square root of m: the vertical
    divergence is the horizontal one; for m below 0 there is none. *)
Theorem C67_divergence l w h :
  sigma_theta (mkGuide 1 l w h) = Fin (203 / 100000) /\
  (forall m, 0 <= m <= 100 -> exists s, sigma_theta (mkGuide m l w h) = Fin s /\ 0 <= s <= PI / 2 /\ sin s = sqrt m * sin (203 / 100000)) /\
  (forall m, m < 0 -> sigma_theta (mkGuide m l w h) = NaN) /\
  (forall m m' s s', 0 <= m <= 100 -> 0 <= m' <= 100 -> sigma_theta (mkGuide m l w h) = Fin s -> sigma_theta (mkGuide m' l w h) = Fin s' -> (s < s' <-> m < m')) /\
  (forall g, sigma_phi g = sigma_theta g).
Proof.
  destruct small_angle as [S0 S1]. set (x := sin (203 / 100000)) in *.
  assert (X : x < 203 / 100000) by (apply sin_lt_x; lra).
  assert (sq : forall m, 0 <= m -> sqrt (m * x ^ 2) = sqrt m * x).
  { intros m Hm. rewrite sqrt_mult; [|exact Hm|nra]. f_equal. replace (x ^ 2) with (x * x) by ring. apply sqrt_square. lra. }
  assert (val : forall m, 0 <= m <= 100 -> sqrt m * x <= 1 /\ 0 <= sqrt m * x).
  { intros m Hm. pose proof (sqrt_pos m). assert (sqrt m <= 10). { replace 10 with (sqrt (10 * 10)) by (apply sqrt_square; lra). apply sqrt_le_1_alt. lra. } split; nra. }
  assert (fin : forall m, 0 <= m <= 100 -> sigma_theta (mkGuide m l w h) = Fin (asin (sqrt m * x))).
  { intros m Hm. unfold sigma_theta. cbn [gu_m]. fold x. unfold fsqrt. destruct (Rle_lt_dec 0 (m * x ^ 2)) as [P|P]; [|exfalso; nra].
    rewrite (sq m) by lra. destruct (val m Hm) as [V _]. destruct (Rle_dec (sqrt m * x) 1); [reflexivity|contradiction]. }
  split; [|split; [|split; [|split]]].
  - rewrite fin by lra. rewrite sqrt_1, Rmult_1_l. f_equal. unfold x. apply asin_sin. pose proof PI2_3_2. unfold PI2 in *. lra.
  - intros m Hm. exists (asin (sqrt m * x)). split; [apply fin, Hm|]. destruct (val m Hm) as [V W]. split; [|apply sin_asin; lra].
    split; [|apply asin_bound]. rewrite <- asin_0. destruct W as [W|W]; [left; apply asin_incr; lra|right; rewrite <- W; reflexivity].
  - intros m Hm. unfold sigma_theta, fsqrt. cbn [gu_m]. fold x. destruct (Rle_lt_dec 0 (m * x ^ 2)) as [P|P]; [exfalso; assert (0 < x ^ 2) by nra; nra|reflexivity].
  - intros m m' s s' Hm Hm' H H'. rewrite fin in H, H' by assumption. injection H as <-. injection H' as <-.
    destruct (val m Hm) as [V W]. destruct (val m' Hm') as [V' W'].
    assert (mono : forall p q, 0 <= p <= 100 -> 0 <= q <= 100 -> p < q -> asin (sqrt p * x) < asin (sqrt q * x)).
    { intros p q Hp Hq Hpq. destruct (val p Hp), (val q Hq). apply asin_incr; try lra. apply Rmult_lt_compat_r; [exact S0|]. apply sqrt_lt_1_alt. lra. }
    split; [|apply mono; assumption]. intros L. destruct (Rtotal_order m m') as [G|[G|G]]; [exact G|subst; lra|]. pose proof (mono m' m Hm' Hm G). lra.
  - reflexivity.
Qed.
Print Assumptions C67_divergence.

(** The critical angle of an m-supermirror, m times that of nickel, is not what comes out: m = 4 gives (nearly) twice the nickel value. *)
Theorem C67_supermirror_refuted l w h : exists s, sigma_theta (mkGuide 4 l w h) = Fin s /\ s < 3 * (203 / 100000).
Proof.
  destruct (C67_divergence l w h) as (_ & A & _). destruct (A 4) as (s & E & [B C] & D); [lra|]. exists s. split; [exact E|].
  destruct (Rlt_le_dec s (3 * (203 / 100000))) as [H|H]; [exact H|exfalso].
  assert (sin (3 * (203 / 100000)) <= sin s). { pose proof PI2_3_2. unfold PI2 in *. apply sin_incr_1; lra. }
  assert (F : sqrt 4 = 2). { replace 4 with (2 * 2) by ring. apply sqrt_square. lra. } rewrite F in D.
  set (t := 203 / 100000) in *. assert (G : sin (3 * t) = 3 * sin t - 4 * sin t ^ 3).
  { replace (3 * t) with (t + t + t) by ring. rewrite !sin_plus, cos_plus. pose proof (sin2_cos2 t) as Q. unfold Rsqr in Q.
    replace (cos t * cos t) with (1 - sin t * sin t) by lra. replace ((sin t * cos t + cos t * sin t) * cos t) with (2 * sin t * (cos t * cos t)) by ring.
    replace (cos t * cos t) with (1 - sin t * sin t) by lra. ring. }
  destruct small_angle as [S0 S1]. fold t in S0, S1. assert (X : sin t < t) by (apply sin_lt_x; unfold t; lra). assert (t < 1 / 4) by (unfold t; lra).
  assert (sin t * sin t < 1 / 16) by nra. nra.
Qed.
Print Assumptions C67_supermirror_refuted.

(** ** C52: goniometers *)
(** A map of space that keeps lengths, angles and handedness. *)
Definition proper_rotation (m : m3) : Prop :=
  (forall a b, dot (mv m a) (mv m b) = dot a b) /\ (forall a b, mv m (cross a b) = cross (mv m a) (mv m b)).
Definition with_sgu (g : gonio) (x : R) : gonio := mkGon (go_u g) (go_theta_u g) (go_v g) (go_theta_v g) x (go_sgl g) (go_omega g).
Definition with_sgl (g : gonio) (x : R) : gonio := mkGon (go_u g) (go_theta_u g) (go_v g) (go_theta_v g) (go_sgu g) x (go_omega g).

Lemma cs x : cos x * cos x = 1 - sin x * sin x.
Proof. pose proof (sin2_cos2 x) as H. unfold Rsqr in H. lra. Qed.
Lemma rad_plus x y : rad (x + y) = rad x + rad y. Proof. unfold rad. field. Qed.
Lemma rad_opp x : rad (- x) = - rad x. Proof. unfold rad. field. Qed.
Lemma rad_90 : rad 90 = PI / 2. Proof. unfold rad. field. Qed.
Lemma rad_0 : rad 0 = 0. Proof. unfold rad. field. Qed.

(** The tilt matrices are rotations about the first and the second axis, and angles add and negate. *)
Theorem C52_tilts g :
  proper_rotation (gN g) /\ proper_rotation (gM g) /\ proper_rotation (mmul (gM g) (gN g)) /\
  mv (gN g) (V 1 0 0) = V 1 0 0 /\ mv (gM g) (V 0 1 0) = V 0 1 0 /\
  (forall x y, gN (with_sgu g (x + y)) = mmul (gN (with_sgu g x)) (gN (with_sgu g y))) /\
  (forall x y, gM (with_sgl g (x + y)) = mmul (gM (with_sgl g x)) (gM (with_sgl g y))) /\
  (forall x, mmul (gN (with_sgu g (- x))) (gN (with_sgu g x)) = mI) /\
  (forall x, mmul (gM (with_sgl g (- x))) (gM (with_sgl g x)) = mI).
Proof.
  assert (comp : forall p q, proper_rotation p -> proper_rotation q -> proper_rotation (mmul p q)).
  { intros p q [P1 P2] [Q1 Q2]. split; intros a b; rewrite !mv_mmul; [rewrite P1; apply Q1|rewrite Q2; apply P2]. }
  assert (N : proper_rotation (gN g)).
  { split; intros a b; unfold gN; set (c := cos (sgu_rad g)); set (s := sin (sgu_rad g)); assert (E : c * c = 1 - s * s) by apply cs; clearbody c s.
    - unfold dot, mv; cbn. ring [E].
    - apply v3_eq; cbn; ring [E]. }
  assert (Mt : proper_rotation (gM g)).
  { split; intros a b; unfold gM; set (c := cos (sgl_rad g)); set (s := sin (sgl_rad g)); assert (E : c * c = 1 - s * s) by apply cs; clearbody c s.
    - unfold dot, mv; cbn. ring [E].
    - apply v3_eq; cbn; ring [E]. }
  split; [exact N|]. split; [exact Mt|]. split; [apply comp; assumption|].
  split; [apply v3_eq; cbn; ring|]. split; [apply v3_eq; cbn; ring|].
  split; [|split; [|split]].
  - intros x y. unfold gN, sgu_rad. cbn [with_sgu go_sgu]. rewrite rad_plus, cos_plus, sin_plus. apply m3_eq; cbn; ring.
  - intros x y. unfold gM, sgl_rad. cbn [with_sgl go_sgl]. rewrite rad_plus, cos_plus, sin_plus. apply m3_eq; cbn; ring.
  - intros x. unfold gN, sgu_rad. cbn [with_sgu go_sgu]. rewrite rad_opp, cos_neg, sin_neg. pose proof (cs (rad x)) as E. apply m3_eq; cbn; ring [E].
  - intros x. unfold gM, sgl_rad. cbn [with_sgl go_sgl]. rewrite rad_opp, cos_neg, sin_neg. pose proof (cs (rad x)) as E. apply m3_eq; cbn; ring [E].
Qed.
Print Assumptions C52_tilts.

(** The sample rotation itself is unavailable for every goniometer, the setting 0 included. *)
Theorem C52_rotation g : gOmega g = Err RecursionError /\ gR g = Err RecursionError /\ gTheta g = Err AttributeError.
Proof. repeat split. Qed.
Print Assumptions C52_rotation.

(** The tilts are in degrees.  The upper turns the second axis towards the third; the lower turns the third towards the first. *)
Theorem C52_sense g : let c x := cos (x * PI / 180) in let s x := sin (x * PI / 180) in
  mv (gN g) (V 0 1 0) = V 0 (c (go_sgu g)) (s (go_sgu g)) /\ mv (gN g) (V 0 0 1) = V 0 (- s (go_sgu g)) (c (go_sgu g)) /\
  mv (gM g) (V 0 0 1) = V (s (go_sgl g)) 0 (c (go_sgl g)) /\ mv (gM g) (V 1 0 0) = V (c (go_sgl g)) 0 (- s (go_sgl g)).
Proof.
  assert (E : forall x, rad x = x * PI / 180) by (intros x; unfold rad; field).
  cbv zeta. unfold gN, gM, sgu_rad, sgl_rad. rewrite !E. repeat split; apply v3_eq; cbn; ring.
Qed.
Print Assumptions C52_sense.

(** The laboratory directions are unit vectors, and two of them with the same tilts enclose the difference of their angles. *)
Theorem C52_directions chi phi : (forall w, dot (u_phi w chi phi) (u_phi w chi phi) = 1) /\
  (forall w w', dot (u_phi w chi phi) (u_phi w' chi phi) = cos (w - w')).
Proof.
  assert (H : forall w w', dot (u_phi w chi phi) (u_phi w' chi phi) = cos (w - w')).
  { intros w w'. rewrite cos_minus. unfold dot, u_phi. cbn. pose proof (cs chi) as E. pose proof (cs phi) as F. ring [E F]. }
  split; [|exact H]. intros w. rewrite H. replace (w - w) with 0 by ring. apply cos_0.
Qed.
Print Assumptions C52_directions.

Lemma det_cols (u v : v3) : det (mT (rows3 u v (cross u v))) = dot (cross u v) (cross u v).
Proof. unfold det, dot. cbn. ring. Qed.
Lemma zero_dot a : dot a a = 0 -> a = V 0 0 0.
Proof. destruct a as [x y z]. unfold dot. cbn. intros H. assert (x = 0) by nra. assert (y = 0) by nra. assert (z = 0) by nra. subst. reflexivity. Qed.
Lemma T_third : u_phi (rad 0) (rad 90) (rad 0) = V 0 0 1.
Proof. rewrite rad_0, rad_90. unfold u_phi. rewrite cos_0, sin_0, cos_PI2, sin_PI2. apply v3_eq; cbn; ring. Qed.

(** The orientation matrix exists exactly when the two reflections are not parallel, and sends them to their measured laboratory
    directions and their normal to the vertical axis. *)
Theorem C52_orientation g : (gU g = None <-> cross (go_u g) (go_v g) = V 0 0 0) /\
  forall m, gU g = Some m ->
    mv m (go_u g) = u_phi (rad (go_theta_u g)) (rad (go_sgl g)) (rad (go_sgu g)) /\
    mv m (go_v g) = u_phi (rad (go_theta_v g)) (rad (go_sgl g)) (rad (go_sgu g)) /\
    mv m (cross (go_u g) (go_v g)) = V 0 0 1.
Proof.
  unfold gU. split.
  - unfold T_c. rewrite det_cols. destruct (Req_EM_T (dot _ _) 0) as [E|E].
    + split; [intros _; apply zero_dot, E|reflexivity].
    + split; [discriminate|]. intros H. exfalso. apply E. rewrite H. unfold dot. cbn. ring.
  - intros m. destruct (Req_EM_T (det (T_c g)) 0) as [E|E]; [discriminate|]. intros H. injection H as <-.
    assert (col : forall a b, mv (T_c g) a = b -> mv (inv (T_c g)) b = a).
    { intros a b <-. rewrite <- mv_mmul, inv_l by exact E. apply v3_eq; cbn; ring. }
    rewrite !mv_mmul. rewrite (col (V 1 0 0) (go_u g)), (col (V 0 1 0) (go_v g)), (col (V 0 0 1) (cross (go_u g) (go_v g))).
    + unfold T_phi, sgl_rad, sgu_rad. rewrite T_third. split; [|split]; apply v3_eq; cbn; ring.
    + apply v3_eq; cbn; ring.
    + apply v3_eq; cbn; ring.
    + apply v3_eq; cbn; ring.
Qed.
Print Assumptions C52_orientation.

(** For perpendicular unit vectors measured ninety degrees apart it is a rotation exactly when the lower tilt is a multiple of a
    full turn: the third direction ignores the tilts. *)
Theorem C52_orientation_rotation g m : dot (go_u g) (go_u g) = 1 -> dot (go_v g) (go_v g) = 1 -> dot (go_u g) (go_v g) = 0 ->
  go_theta_v g = go_theta_u g + 90 -> gU g = Some m -> (proper_rotation m <-> cos (rad (go_sgl g)) = 1).
Proof.
  intros Hu Hv Huv Ht Hm. destruct (C52_orientation g) as [_ O]. destruct (O m Hm) as (A & B & C). clear O.
  rewrite Ht, rad_plus, rad_90 in B. unfold u_phi in A, B. rewrite cos_plus, sin_plus, cos_PI2, sin_PI2 in B.
  set (u := go_u g) in *. set (v := go_v g) in *. set (w := rad (go_theta_u g)) in *. set (x := rad (go_sgl g)) in *. set (y := rad (go_sgu g)) in *.
  pose proof (cs w) as Cw. pose proof (cs x) as Cx. pose proof (cs y) as Cy. split.
  - intros [P1 P2]. specialize (P2 u v). rewrite C, A, B in P2. apply (f_equal vz) in P2. cbn in P2.
    transitivity ((cos w * cos w + sin w * sin w) * (cos y * cos y + sin y * sin y) * cos x); [rewrite Cw, Cy; ring|]. rewrite P2. ring.
  - intros H. assert (Sx : sin x = 0) by (rewrite H in Cx; nra). rewrite H, Sx in A, B.
    assert (dec : forall a, a = vadd (vadd (vscal (dot a u) u) (vscal (dot a v) v)) (vscal (dot a (cross u v)) (cross u v))).
    { clear - Hu Hv Huv. intros a.
      assert (K : forall b, dot b (cross u v) = 0 -> dot b u = 0 -> dot b v = 0 -> dot b b = 0).
      { intros b K1 K2 K3.
        assert (L : dot b b * (dot u u * dot v v - dot u v ^ 2) = dot b u ^ 2 * dot v v + dot b v ^ 2 * dot u u - 2 * dot b u * dot b v * dot u v + dot b (cross u v) ^ 2).
        { unfold dot, cross. cbn. ring. }
        rewrite Hu, Hv, Huv, K1, K2, K3 in L. lra. }
      set (d := vsub a (vadd (vadd (vscal (dot a u) u) (vscal (dot a v) v)) (vscal (dot a (cross u v)) (cross u v)))).
      assert (lin : forall c, dot d c = dot a c - dot a u * dot u c - dot a v * dot v c - dot a (cross u v) * dot (cross u v) c).
      { intros c. unfold d, dot. cbn. ring. }
      assert (o1 : dot (cross u v) u = 0) by (unfold dot, cross; cbn; ring). assert (o2 : dot (cross u v) v = 0) by (unfold dot, cross; cbn; ring).
      assert (o3 : dot (cross u v) (cross u v) = 1). { replace 1 with (dot u u * dot v v - dot u v ^ 2) by (rewrite Hu, Hv, Huv; ring). unfold dot, cross. cbn. ring. }
      assert (Z : d = V 0 0 0).
      { apply zero_dot, K.
        - rewrite lin, (dot_comm u), (dot_comm v), o1, o2, o3. ring.
        - rewrite lin, Hu, o1, (dot_comm v u), Huv. ring.
        - rewrite lin, Hv, o2, Huv. ring. }
      destruct a as [a1 a2 a3]. apply v3_eq; [apply (f_equal vx) in Z|apply (f_equal vy) in Z|apply (f_equal vz) in Z]; cbn in *; lra. }
    assert (img : forall a, mv m a = vadd (vadd (vscal (dot a u) (mv m u)) (vscal (dot a v) (mv m v))) (vscal (dot a (cross u v)) (mv m (cross u v)))).
    { intros a. rewrite (dec a) at 1. apply v3_eq; cbn; ring. }
    assert (par : forall a b, dot a b = dot a u * dot b u + dot a v * dot b v + dot a (cross u v) * dot b (cross u v)).
    { intros a b. rewrite (dec a) at 1. rewrite (dot_comm b u), (dot_comm b v), (dot_comm b (cross u v)). unfold dot at 1. cbn. unfold dot. cbn. ring. }
    split.
    + intros a b. rewrite (img a), (img b), (par a b), A, B, C. unfold dot at 1. unfold vadd, vscal. cbn [vx vy vz].
      generalize (dot a u) (dot a v) (dot a (cross u v)) (dot b u) (dot b v) (dot b (cross u v)). intros. ring [Cw Cy].
    + intros a b. rewrite (img (cross a b)).
      assert (q1 : dot (cross a b) (cross u v) = dot a u * dot b v - dot a v * dot b u) by (unfold dot, cross; cbn; ring).
      assert (uvv : cross v (cross u v) = u).
      { transitivity (vsub (vscal (dot v v) u) (vscal (dot u v) v)); [apply v3_eq; unfold dot, cross; cbn; ring|]. rewrite Hv, Huv. apply v3_eq; cbn; ring. }
      assert (uvu : cross (cross u v) u = v).
      { transitivity (vsub (vscal (dot u u) v) (vscal (dot u v) u)); [apply v3_eq; unfold dot, cross; cbn; ring|]. rewrite Hu, Huv. apply v3_eq; cbn; ring. }
      assert (q2 : dot (cross a b) u = dot a v * dot b (cross u v) - dot a (cross u v) * dot b v) by (rewrite <- uvv at 1; unfold dot, cross; cbn; ring).
      assert (q3 : dot (cross a b) v = dot a (cross u v) * dot b u - dot a u * dot b (cross u v)) by (rewrite <- uvu at 1; unfold dot, cross; cbn; ring).
      rewrite q1, q2, q3, (img a), (img b), A, B, C.
      generalize (dot a u) (dot a v) (dot a (cross u v)) (dot b u) (dot b v) (dot b (cross u v)). intros. apply v3_eq; unfold vadd, vscal, cross; cbn [vx vy vz]; ring [Cw Cy].
Qed.
Print Assumptions C52_orientation_rotation.

Example C52_orientation_rotation_case : let g := mkGon (V 1 0 0) 10 (V 0 1 0) 100 5 0 0 in
  dot (go_u g) (go_u g) = 1 /\ dot (go_v g) (go_v g) = 1 /\ dot (go_u g) (go_v g) = 0 /\ go_theta_v g = go_theta_u g + 90 /\ exists m, gU g = Some m.
Proof.
  cbn. unfold dot. cbn. repeat split; try lra. destruct (gU _) as [m|] eqn:E; [exists m; reflexivity|].
  apply C52_orientation in E. cbn in E. apply (f_equal vz) in E. cbn in E. lra.
Qed.

(** Vectors of another length than 1, as the Miller indices of a reflection are, never give a rotation. *)
Theorem C52_orientation_lengths g m : gU g = Some m -> proper_rotation m -> dot (go_u g) (go_u g) = 1 /\ dot (go_v g) (go_v g) = 1.
Proof.
  intros E [P _]. destruct (C52_orientation g) as [_ O]. destruct (O m E) as (A & B & _).
  rewrite <- (P (go_u g) (go_u g)), <- (P (go_v g) (go_v g)), A, B. split; apply (proj1 (C52_directions _ _)).
Qed.
Print Assumptions C52_orientation_lengths.
(** Given in any other length, as the Miller indices of a reflection are, the vectors do not give a rotation, whatever the angles. *)
Theorem C52_orientation_refuted tu tv sgu sgl om : exists m, gU (mkGon (V 2 0 0) tu (V 0 1 0) tv sgu sgl om) = Some m /\ ~ proper_rotation m.
Proof.
  set (g := mkGon _ _ _ _ _ _ _). destruct (gU g) as [m|] eqn:E.
  - exists m. split; [reflexivity|]. intros [P _]. destruct (C52_orientation g) as [_ O]. destruct (O m E) as (A & _). specialize (P (go_u g) (go_u g)).
    rewrite A in P. rewrite (proj1 (C52_directions _ _)) in P. unfold dot in P. cbn in P. lra.
  - exfalso. apply C52_orientation in E. cbn in E. apply (f_equal vz) in E. cbn in E. lra.
Qed.
Print Assumptions C52_orientation_refuted.

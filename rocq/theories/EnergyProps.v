(** Properties of neutron energy conversions (C17-C20). *)
From Coq Require Import Reals List Lra Lia Psatz.
From Verif Require Import Base EnergyModel.
Import ListNotations.
Local Open Scope R_scope.

(** Physical constants are positive and hbar = h / 2 pi. *)
Definition physical (c : consts) : Prop :=
  0 < c_h c /\ 0 < c_k c /\ 0 < c_m c /\ 0 < c_J c /\ c_hbar c = c_h c / (2 * PI).

Lemma hbar_pos c : physical c -> 0 < c_hbar c.
Proof. intros (H & _ & _ & _ & ->). assert (P := PI_RGT_0). apply Rdiv_lt_0_compat; lra. Qed.

Lemma energy_of_pos c q x : physical c -> 0 < x -> exists E, energy_of c q x = Ok E /\ 0 < E.
Proof.
  intros P Hx. assert (Hb := hbar_pos c P). destruct P as (Hh & Hk & Hm & HJ & _). assert (Pi := PI_RGT_0).
  assert (T := pow_lt 10 10 ltac:(lra)). assert (T' := pow_lt 10 12 ltac:(lra)).
  destruct q; cbn [energy_of]; try (destruct (Req_EM_T x 0); [lra|]); eexists; split; try reflexivity; auto;
    repeat first [lra | apply Rdiv_lt_0_compat | apply Rmult_lt_0_compat | apply pow_lt | assumption | lra].
Qed.

Lemma sq_pos_sqrt a : 0 < a -> sqrt a ^ 2 = a.
Proof. intros. rewrite <- Rsqr_pow2. apply Rsqr_sqrt. lra. Qed.
Lemma fsqrt_pos a : 0 < a -> fsqrt a = Fin (sqrt a).
Proof. intros. unfold fsqrt. destruct (Rle_lt_dec 0 a); auto. lra. Qed.

Lemma wave_arg c E : physical c -> 0 < E -> 0 < c_h c ^ 2 / (2 * c_m c * E / c_J c).
Proof.
  intros (Hh & _ & Hm & HJ & _) HE.
  repeat first [lra | apply Rdiv_lt_0_compat | apply Rmult_lt_0_compat | apply pow_lt | assumption | lra].
Qed.
Lemma vel_arg c E : physical c -> 0 < E -> 0 < 2 * E / c_J c / c_m c.
Proof.
  intros (Hh & _ & Hm & HJ & _) HE.
  repeat first [lra | apply Rdiv_lt_0_compat | apply Rmult_lt_0_compat | apply pow_lt | assumption | lra].
Qed.

(** Every property of an object with positive energy is a positive number from which the energy is
    recovered. *)
Lemma get_back c E q : physical c -> 0 < E ->
  exists y, get (values_of c E) q = Fin y /\ 0 < y /\ energy_of c q y = Ok E.
Proof.
  intros P HE. assert (Hb := hbar_pos c P). assert (WA := wave_arg c E P HE). assert (VA := vel_arg c E P HE).
  assert (Pi := PI_RGT_0). assert (SW := sqrt_lt_R0 _ WA). assert (SV := sqrt_lt_R0 _ VA).
  destruct P as (Hh & Hk & Hm & HJ & Hbar).
  assert (T := pow_lt 10 10 ltac:(lra)). assert (T' := pow_lt 10 12 ltac:(lra)).
  destruct q; unfold values_of, get; cbn [en wavelen wavevec vel EnergyModel.temp freq];
    try (destruct (Req_EM_T E 0); [lra|]); unfold wavevector_of, wavelength_of; rewrite ?(fsqrt_pos _ WA), ?(fsqrt_pos _ VA);
    cbn [fmap].
  - exists E. auto.
  - exists (sqrt (c_h c ^ 2 / (2 * c_m c * E / c_J c)) * 10 ^ 10). split; auto.
    assert (0 < sqrt (c_h c ^ 2 / (2 * c_m c * E / c_J c)) * 10 ^ 10) by (now apply Rmult_lt_0_compat).
    split; auto. cbn [energy_of]. destruct (Req_EM_T _ 0); [lra|]. f_equal.
    replace (sqrt (c_h c ^ 2 / (2 * c_m c * E / c_J c)) * 10 ^ 10 / 10 ^ 10) with (sqrt (c_h c ^ 2 / (2 * c_m c * E / c_J c))) by (field; lra).
    rewrite sq_pos_sqrt by auto. field. repeat split; lra.
  - exists (sqrt (2 * E / c_J c / c_m c)). split; auto. split; auto. cbn [energy_of]. f_equal.
    rewrite sq_pos_sqrt by auto. field. split; lra.
  - set (l := sqrt (c_h c ^ 2 / (2 * c_m c * E / c_J c)) * 10 ^ 10).
    assert (Hl : 0 < l) by (now apply Rmult_lt_0_compat).
    exists (2 * PI / l). split; auto. assert (0 < 2 * PI / l) by (apply Rdiv_lt_0_compat; lra). split; auto.
    cbn [energy_of]. destruct (Req_EM_T _ 0); [lra|]. f_equal.
    replace (2 * PI / (2 * PI / l) / 10 ^ 10) with (sqrt (c_h c ^ 2 / (2 * c_m c * E / c_J c))) by (unfold l; field; repeat split; lra).
    rewrite sq_pos_sqrt by auto. field. repeat split; lra.
  - exists (E / c_k c / c_J c). split; auto. split; [repeat apply Rdiv_lt_0_compat; auto|]. cbn [energy_of]. f_equal. field. split; lra.
  - exists (E / c_J c / c_hbar c / 2 / PI / 10 ^ 12). split; auto. split; [repeat apply Rdiv_lt_0_compat; auto; lra|].
    cbn [energy_of]. f_equal. field. repeat split; lra.
Qed.

(** C17.  The six conversions are mutually inverse: the property used for construction is returned
    unchanged, and rebuilding from any property gives the same object. *)
Theorem C17_conversions_inverse : forall c q q' x, physical c -> 0 < x ->
  exists o y, build c q x = Ok o /\ get o q = Fin x /\ get o q' = Fin y /\ 0 < y /\ build c q' y = Ok o.
Proof.
  intros c q q' x P Hx. destruct (energy_of_pos c q x P Hx) as (E & HE & PE).
  destruct (get_back c E q' P PE) as (y & G & Py & B). exists (values_of c E), y.
  unfold build. rewrite HE, B. repeat split; auto.
  (* the defining quantity comes back *)
  destruct (get_back c E q P PE) as (z & Gz & Pz & Bz). rewrite Gz. f_equal.
  assert (I : energy_of c q x = energy_of c q z) by congruence. clear - I P Hx Pz.
  assert (Hb := hbar_pos c P). assert (Pi := PI_RGT_0). destruct P as (Hh & Hk & Hm & HJ & _).
  assert (T := pow_lt 10 10 ltac:(lra)). assert (T' := pow_lt 10 12 ltac:(lra)).
  assert (SQ : forall a b, 0 < a -> 0 < b -> a ^ 2 = b ^ 2 -> a = b) by (intros; nra).
  destruct q; cbn [energy_of] in I; try (destruct (Req_EM_T x 0); [lra|]); try (destruct (Req_EM_T z 0); [lra|]);
    apply (f_equal (fun r => match r with Ok a => a | Err _ => 0 end)) in I; cbv beta iota in I.
  - auto.
  - symmetry. apply SQ; auto.
    assert (A : c_h c ^ 2 * c_J c / (2 * c_m c) * (10 ^ 10) ^ 2 <> 0).
    { apply Rgt_not_eq. repeat first [lra | apply Rdiv_lt_0_compat | apply Rmult_lt_0_compat | apply pow_lt | assumption | lra]. }
    apply (Rmult_eq_reg_l (c_h c ^ 2 * c_J c / (2 * c_m c) * (10 ^ 10) ^ 2 / (x ^ 2 * z ^ 2))).
    + replace (c_h c ^ 2 * c_J c / (2 * c_m c) * (10 ^ 10) ^ 2 / (x ^ 2 * z ^ 2) * z ^ 2)
        with (c_h c ^ 2 / (2 * c_m c * (x / 10 ^ 10) ^ 2) * c_J c) by (field; repeat split; lra).
      rewrite I. field. repeat split; lra.
    + apply Rgt_not_eq. repeat first [lra | apply Rdiv_lt_0_compat | apply Rmult_lt_0_compat | apply pow_lt | assumption | lra].
  - symmetry. apply SQ; auto. apply (Rmult_eq_reg_l (1 / 2 * c_m c * c_J c)); [lra|].
    apply Rgt_not_eq. repeat first [lra | apply Rmult_lt_0_compat | lra].
  - symmetry. apply SQ; auto.
    apply (Rmult_eq_reg_l (c_h c ^ 2 * c_J c / (2 * c_m c) * (10 ^ 10) ^ 2 / (2 * PI) ^ 2)).
    + replace (c_h c ^ 2 * c_J c / (2 * c_m c) * (10 ^ 10) ^ 2 / (2 * PI) ^ 2 * x ^ 2)
        with (c_h c ^ 2 / (2 * c_m c * (2 * PI / x / 10 ^ 10) ^ 2) * c_J c) by (field; repeat split; lra).
      rewrite I. field. repeat split; lra.
    + apply Rgt_not_eq. repeat first [lra | apply Rdiv_lt_0_compat | apply Rmult_lt_0_compat | apply pow_lt | assumption | lra].
  - apply (Rmult_eq_reg_l (c_k c * c_J c)); [lra|]. apply Rgt_not_eq. apply Rmult_lt_0_compat; auto.
  - apply (Rmult_eq_reg_l (c_hbar c * 2 * PI * c_J c * 10 ^ 12)); [lra|].
    apply Rgt_not_eq. repeat first [lra | apply Rmult_lt_0_compat | assumption | lra].
Qed.
Print Assumptions C17_conversions_inverse.

(** C17.  The textbook relations, with wavelength in Angstrom, wave vector in inverse Angstrom,
    frequency in THz: E = (hbar k)^2 / 2m = m v^2 / 2 = kB T = h f and lambda k = 2 pi. *)
Theorem C17_relations : forall c q x o, physical c -> 0 < x -> build c q x = Ok o ->
  exists l k v, wavelen o = Fin l /\ wavevec o = Fin k /\ vel o = Fin v /\
    l * k = 2 * PI /\
    en o = (c_hbar c * (k * 10 ^ 10)) ^ 2 / (2 * c_m c) * c_J c /\
    en o = c_m c * v ^ 2 / 2 * c_J c /\
    en o = c_k c * EnergyModel.temp o * c_J c /\
    en o = c_h c * (freq o * 10 ^ 12) * c_J c.
Proof.
  intros c q x o P Hx B. destruct (energy_of_pos c q x P Hx) as (E & HE & PE). unfold build in B. rewrite HE in B.
  inversion B; subst o; clear B.
  assert (Hb := hbar_pos c P). assert (WA := wave_arg c E P PE). assert (VA := vel_arg c E P PE).
  assert (Pi := PI_RGT_0). assert (SW := sqrt_lt_R0 _ WA).
  destruct P as (Hh & Hk & Hm & HJ & Hbar).
  assert (T := pow_lt 10 10 ltac:(lra)). assert (T' := pow_lt 10 12 ltac:(lra)).
  unfold values_of; cbn [en wavelen wavevec vel EnergyModel.temp freq]. destruct (Req_EM_T E 0); [lra|].
  unfold wavevector_of, wavelength_of. rewrite (fsqrt_pos _ WA), (fsqrt_pos _ VA). cbn [fmap].
  set (s := sqrt (c_h c ^ 2 / (2 * c_m c * E / c_J c))) in *.
  assert (S2 : s ^ 2 = c_h c ^ 2 / (2 * c_m c * E / c_J c)) by (apply sq_pos_sqrt; auto).
  do 3 eexists. repeat (split; [reflexivity|]). split; [field; lra|]. split; [|split; [|split]].
  - rewrite Hbar. replace ((c_h c / (2 * PI) * (2 * PI / (s * 10 ^ 10) * 10 ^ 10)) ^ 2) with (c_h c ^ 2 / s ^ 2) by (field; repeat split; lra).
    rewrite S2. field. repeat split; try lra.
  - rewrite sq_pos_sqrt by auto. field. split; lra.
  - field. split; lra.
  - rewrite Hbar. field. repeat split; lra.
Qed.
Print Assumptions C17_relations.
Definition ex_c : consts := mkC 6 (6 / (2 * PI)) 1 2 1000.
Example C17_ex : physical ex_c /\ 0 < 5.
Proof. unfold physical, ex_c; simpl. repeat split; lra. Qed.

(** C17.  Priority of the arguments. *)
Theorem C17_energy_argument_wins : forall c e wl v k t f, init c (Some e) wl v k t f = build c QEnergy e.
Proof. intros; destruct wl, v, k, t, f; reflexivity. Qed.
Print Assumptions C17_energy_argument_wins.
(** C17.  Of several arguments the first in this order counts, whatever the others are. *)
Definition order : list quantity := [QEnergy; QWavelength; QVelocity; QWavevector; QTemperature; QFrequency].
Definition given (e wl v k t f : option R) (q : quantity) : option R :=
  match q with QEnergy => e | QWavelength => wl | QVelocity => v | QWavevector => k | QTemperature => t | QFrequency => f end.
Theorem C17_first_argument_counts : forall c e wl v k t f before q after x, order = before ++ q :: after ->
  (forall q', In q' before -> given e wl v k t f q' = None) -> given e wl v k t f q = Some x -> init c e wl v k t f = build c q x.
Proof.
  intros c e wl v k t f before q after x O N G. unfold order in O.
  destruct before as [|a0 [|a1 [|a2 [|a3 [|a4 [|a5 before]]]]]]; cbn [app] in O; injection O as; subst; cbn [given] in G;
    [ | | | | | |destruct before; discriminate].
  all: try (pose proof (N QEnergy ltac:(cbn; tauto)) as N0; cbn [given] in N0); try (pose proof (N QWavelength ltac:(cbn; tauto)) as N1; cbn [given] in N1);
    try (pose proof (N QVelocity ltac:(cbn; tauto)) as N2; cbn [given] in N2); try (pose proof (N QWavevector ltac:(cbn; tauto)) as N3; cbn [given] in N3);
    try (pose proof (N QTemperature ltac:(cbn; tauto)) as N4; cbn [given] in N4); clear N; subst; reflexivity.
Qed.
Print Assumptions C17_first_argument_counts.
Example C17_first_argument_counts_ex : init ex_c None None (Some 3) (Some 4) None (Some 5) = build ex_c QVelocity 3.
Proof. apply (C17_first_argument_counts ex_c None None (Some 3) (Some 4) None (Some 5) [QEnergy; QWavelength] QVelocity [QWavevector; QTemperature; QFrequency]); [reflexivity| |reflexivity]. intros q' [<-|[<-|[]]]; reflexivity. Qed.
Theorem C17_some_argument_needed : forall c e wl v k t f,
  init c e wl v k t f = Err AttributeError <-> e = None /\ wl = None /\ v = None /\ k = None /\ t = None /\ f = None.
Proof.
  intros c e wl v k t f. split.
  - destruct e, wl, v, k, t, f; simpl; unfold build; simpl;
      try (destruct (Req_EM_T _ 0)); try discriminate; auto 10.
  - intros (-> & -> & -> & -> & -> & ->). reflexivity.
Qed.
Print Assumptions C17_some_argument_needed.

(** C18.  After any history the object is the one built from the last assignment that did not raise
    alone; only a zero wavelength or wavevector raises. *)
Theorem C18_last_assignment_counts : forall c o l1 q x l2,
  (forall q' x', In (q', x') l2 -> x' = 0 /\ (q' = QWavelength \/ q' = QWavevector)) ->
  (x <> 0 \/ (q <> QWavelength /\ q <> QWavevector)) ->
  Ok (run c o (l1 ++ (q, x) :: l2)) = build c q x.
Proof.
  intros c o l1 q x l2 H Hx. unfold run. rewrite fold_left_app. cbn [fold_left].
  assert (B : exists o', build c q x = Ok o').
  { unfold build. destruct q; simpl; eauto; destruct (Req_EM_T x 0); eauto; destruct Hx as [Hx|[Hx1 Hx2]]; tauto. }
  destruct B as [o' B]. unfold assign at 2. cbn [fst snd]. rewrite B.
  f_equal. clear B Hx. induction l2 as [|[q' x'] l2 IH]; simpl; auto.
  assert (A : assign c o' (q', x') = o').
  { destruct (H q' x' (or_introl eq_refl)) as [-> [-> | ->]]; unfold assign, build; simpl; destruct (Req_EM_T 0 0); auto; lra. }
  rewrite A. apply IH. intros q1 x1 H1. apply H. now right.
Qed.
Print Assumptions C18_last_assignment_counts.
(** C18.  In particular for positive values only. *)
Theorem C18_positive_history : forall c o l q x, Forall (fun a => 0 < snd a) (l ++ [(q, x)]) ->
  Ok (run c o (l ++ [(q, x)])) = build c q x.
Proof.
  intros c o l q x F. apply C18_last_assignment_counts; [intros ? ? []|]. left.
  rewrite Forall_forall in F. specialize (F (q, x)). simpl in F. assert (0 < x) by (apply F, in_or_app; right; now left). lra.
Qed.
Print Assumptions C18_positive_history.
Example C18_ex : Forall (fun a : quantity * R => 0 < snd a) ([(QEnergy, 5); (QWavelength, 2)] ++ [(QVelocity, 3)]).
Proof. repeat constructor; simpl; lra. Qed.

(** C19.  Scalar zero. *)
Theorem C19_scalar_zero : forall c, exists o, build c QEnergy 0 = Ok o /\
  en o = 0 /\ wavelen o = NaN /\ wavevec o = Fin 0 /\ vel o = Fin 0 /\ EnergyModel.temp o = 0 /\ freq o = 0.
Proof.
  intros c. eexists. split; [reflexivity|]. unfold values_of; cbn [en wavelen wavevec vel EnergyModel.temp freq].
  destruct (Req_EM_T 0 0); [|lra]. repeat split; auto; try (unfold Rdiv; ring).
  replace (2 * 0 / c_J c / c_m c) with 0 by (unfold Rdiv; ring). unfold fsqrt. destruct (Rle_lt_dec 0 0); [|lra]. now rewrite sqrt_0.
Qed.
Print Assumptions C19_scalar_zero.
(** C19.  The inverse direction is not available: a zero wave vector raises. *)
Theorem C19_zero_wavevector_raises : forall c,
  build c QWavevector 0 = Err ZeroDivisionError /\ build c QWavelength 0 = Err ZeroDivisionError.
Proof. intros c. unfold build. simpl. destruct (Req_EM_T 0 0); [auto|lra]. Qed.
Print Assumptions C19_zero_wavevector_raises.

(** C19.  Arrays: without a zero each entry is converted on its own; with one, zeros get a zero wave
    vector and every other entry keeps its wavelength but gets an infinite wave vector. *)
Theorem C19_array : forall c es i E, nth_error es i = Some E ->
  (~ In 0 es -> nth_error (array_waves c es) i = Some (wavelength_of c E, wavevector_of c E)) /\
  (In 0 es -> E = 0 -> nth_error (array_waves c es) i = Some (NaN, Fin 0)) /\
  (In 0 es -> E <> 0 -> nth_error (array_waves c es) i = Some (wavelength_of c E, Inf)).
Proof.
  intros c es i E H. unfold array_waves.
  assert (X : existsb (fun E => if Req_EM_T E 0 then true else false) es = true <-> In 0 es).
  { rewrite existsb_exists. split.
    - intros (x & Hx & Q). destruct (Req_EM_T x 0); [subst; auto|discriminate].
    - intros Hx. exists 0. split; auto. destruct (Req_EM_T 0 0); auto. }
  destruct (existsb _ es).
  - assert (I : In 0 es) by (now apply X). split; [tauto|].
    rewrite nth_error_map, H. simpl. destruct (Req_EM_T E 0); split; tauto.
  - assert (I : ~ In 0 es) by (intros Q; apply X in Q; discriminate). split; [|tauto].
    intros _. rewrite nth_error_map, H. reflexivity.
Qed.
Print Assumptions C19_array.
(** C19.  So a zero entry does disturb its neighbours. *)
Theorem C19_zero_is_local_refuted : exists c es E, physical c /\ In E es /\ 0 < E /\
  (exists i k, nth_error es i = Some E /\ nth_error (array_waves c [E]) 0 = Some k /\
               nth_error (array_waves c es) i <> Some k).
Proof.
  exists ex_c, [0; 5], 5. split; [apply C17_ex|]. split; [simpl; auto|]. split; [lra|].
  exists 1%nat, (wavelength_of ex_c 5, wavevector_of ex_c 5). split; [reflexivity|]. split.
  - apply (C19_array ex_c [5] 0 5); simpl; auto. intros [?|[]]; lra.
  - destruct (C19_array ex_c [0; 5] 1 5 eq_refl) as (_ & _ & A). rewrite A by (simpl; auto; lra).
    assert (W := wave_arg ex_c 5 (proj1 C17_ex) ltac:(lra)).
    unfold wavevector_of, wavelength_of. rewrite (fsqrt_pos _ W). simpl fmap. discriminate.
Qed.
Print Assumptions C19_zero_is_local_refuted.

(** C20.  Tolerant equality: reflexive and symmetric ... *)
Theorem C20_reflexive_symmetric : forall a b, eqb a a = true /\ eqb a b = eqb b a /\
  (eqb a b = true <-> Rabs (en a - en b) < 1 / 10 ^ 6).
Proof.
  intros a b. unfold eqb. split; [|split].
  - replace (en a - en a) with 0 by ring. rewrite Rabs_R0. destruct (Rlt_dec 0 (1 / 10 ^ 6)); auto. exfalso. apply n. lra.
  - now rewrite (Rabs_minus_sym (en a)).
  - destruct (Rlt_dec _ _); split; auto; discriminate || tauto.
Qed.
Print Assumptions C20_reflexive_symmetric.
(** C20.  ... but not transitive. *)
Theorem C20_transitive_refuted : exists c a b d o1 o2 o3,
  build c QEnergy a = Ok o1 /\ build c QEnergy b = Ok o2 /\ build c QEnergy d = Ok o3 /\
  eqb o1 o2 = true /\ eqb o2 o3 = true /\ eqb o1 o3 = false.
Proof.
  exists ex_c, 5, (5 + 6 / 10 ^ 7), (5 + 12 / 10 ^ 7). do 3 eexists.
  repeat (split; [reflexivity|]). unfold eqb, values_of; cbn [en].
  assert (A : forall x, x < 0 -> Rabs x = - x) by (intros; apply Rabs_left; auto).
  repeat split; match goal with |- context [Rlt_dec ?u ?v] => destruct (Rlt_dec u v) as [H|H] end; auto; exfalso.
  - apply H. rewrite A; lra.
  - apply H. rewrite A; lra.
  - rewrite A in H; lra.
Qed.
Print Assumptions C20_transitive_refuted.
(** C20.  Equal energies with different wave vectors exist: equality of the objects does not mean
    equality of their properties. *)
Theorem C20_equal_values_refuted : exists c o1 o2, physical c /\
  build c QEnergy 0 = Ok o1 /\ build c QEnergy (1 / 10 ^ 7) = Ok o2 /\ eqb o1 o2 = true /\ wavelen o1 <> wavelen o2.
Proof.
  exists ex_c. do 2 eexists. split; [apply C17_ex|]. repeat (split; [reflexivity|]). split.
  - unfold eqb, values_of; cbn [en]. destruct (Rlt_dec _ _) as [H|H]; auto. exfalso. apply H.
    rewrite Rabs_left; lra.
  - unfold values_of; cbn [wavelen]. destruct (Req_EM_T 0 0); [|lra]. destruct (Req_EM_T (1 / 10 ^ 7) 0); [lra|].
    assert (W := wave_arg ex_c (1 / 10 ^ 7) (proj1 C17_ex) ltac:(lra)).
    unfold wavelength_of. rewrite (fsqrt_pos _ W). simpl fmap. discriminate.
Qed.
Print Assumptions C20_equal_values_refuted.

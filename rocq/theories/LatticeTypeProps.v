(** Properties of the lattice-type classification (C24). *)
From Coq Require Import String List QArith Bool Lia Lqa.
From Verif Require Import Base LatticeTypeModel.
Import ListNotations.
Local Open Scope string_scope.
Local Open Scope Q_scope.

Definition all_distinct (x y z : Q) : Prop := ~ x == y /\ ~ y == z /\ ~ x == z.
Definition all_equal (x y z : Q) : Prop := x == y /\ y == z.
Definition right_angles (c : cell6) : Prop := c_al c == 90 /\ c_be c == 90 /\ c_ga c == 90.

(** The table of patterns, written from the documentation of the lattice types, not from the code. *)
Inductive pattern (c : cell6) : string -> Prop :=
| p_tri : all_distinct (c_a c) (c_b c) (c_c c) -> all_distinct (c_al c) (c_be c) (c_ga c) -> pattern c "triclinic"
| p_mono : all_distinct (c_a c) (c_b c) (c_c c) -> c_al c == 90 -> c_ga c == 90 -> ~ c_be c == 90 -> pattern c "monoclinic"
| p_orth : all_distinct (c_a c) (c_b c) (c_c c) -> right_angles c -> pattern c "orthorhombic"
| p_rhom : all_equal (c_a c) (c_b c) (c_c c) -> all_equal (c_al c) (c_be c) (c_ga c) -> c_al c < 120 -> ~ c_al c == 90 -> pattern c "rhombohedral"
| p_tetr : c_a c == c_b c -> ~ c_b c == c_c c -> right_angles c -> pattern c "tetragonal"
| p_hexa : c_a c == c_b c -> ~ c_b c == c_c c -> c_al c == 90 -> c_be c == 90 -> c_ga c == 120 -> pattern c "hexagonal"
| p_cubi : all_equal (c_a c) (c_b c) (c_c c) -> right_angles c -> pattern c "cubic".

(** One reflected view of every comparison. *)
Lemma qeqP x y : {Qeq_bool x y = true /\ x == y} + {Qeq_bool x y = false /\ ~ x == y}.
Proof.
  destruct (Qeq_bool x y) eqn:E; [left|right]; split; auto.
  - now apply Qeq_bool_iff.
  - intros H. apply Qeq_bool_iff in H. congruence.
Qed.
Lemma qleP x : {Qle_bool 120 x = true /\ 120 <= x} + {Qle_bool 120 x = false /\ x < 120}.
Proof.
  destruct (Qle_bool 120 x) eqn:E; [left|right]; split; auto.
  - now apply Qle_bool_iff.
  - apply Qnot_le_lt. intros H. apply Qle_bool_iff in H. congruence.
Qed.

Ltac qcase x y := let A := fresh "A" in let B := fresh "B" in
  destruct (qeqP x y) as [[A B]|[A B]]; rewrite ?A.

Lemma pattern_unique c s t : pattern c s -> pattern c t -> s = t.
Proof.
  intros H K. destruct H, K; try reflexivity; exfalso; unfold all_distinct, all_equal, right_angles in *;
    intuition (try lra); match goal with H : ~ _ |- _ => apply H; lra end.
Qed.

Lemma type_pattern c : match lattice_type c with Ok s => pattern c s | Err e => e = ValueError /\ forall s, ~ pattern c s end.
Proof.
  destruct c as [a b cc al be ga]. unfold lattice_type, lengths, angles, is90, distinct, mem_q, firstn, forallb;
    cbn [c_a c_b c_c c_al c_be c_ga].
  qcase a b; qcase a cc; qcase b cc; try (exfalso; lra);
  try (exfalso; match goal with H : ~ _ |- _ => apply H; lra end);
  qcase al be; qcase al ga; qcase be ga; try (exfalso; lra);
  try (exfalso; match goal with H : ~ _ |- _ => apply H; lra end);
  qcase be 90; qcase al 90; qcase ga 90; try (exfalso; lra);
  try (exfalso; match goal with H : ~ _ |- _ => apply H; lra end);
  cbn [orb andb negb Nat.eqb];
  qcase ga 120; try (exfalso; lra); try (exfalso; match goal with H : ~ _ |- _ => apply H; lra end);
  destruct (qleP al) as [[L1 L2]|[L1 L2]]; destruct (qleP be) as [[L3 L4]|[L3 L4]]; destruct (qleP ga) as [[L5 L6]|[L5 L6]];
  rewrite ?L1, ?L3, ?L5; cbn [orb andb negb Nat.eqb]; try (exfalso; lra);
  first [constructor; unfold all_distinct, all_equal, right_angles; cbn [c_a c_b c_c c_al c_be c_ga]; repeat split; solve [assumption | lra]
        | split; [reflexivity|]; intros s H; destruct H; unfold all_distinct, all_equal, right_angles in *;
          cbn [c_a c_b c_c c_al c_be c_ga] in *; intuition (try lra) ].
Qed.

(** C24.  A type is reported exactly when the cell has that type's pattern; the patterns exclude each
    other; otherwise ValueError is raised. *)
Theorem C24_lattice_type : forall c,
  (forall s, lattice_type c = Ok s <-> pattern c s) /\
  (forall e, lattice_type c = Err e <-> e = ValueError /\ forall s, ~ pattern c s) /\
  (forall s t, pattern c s -> pattern c t -> s = t).
Proof.
  intros c. assert (T := type_pattern c). split; [|split].
  - intros s. destruct (lattice_type c) as [t|e].
    + split; [intros H; inversion H; now subst|]. intros H. f_equal. eapply pattern_unique; eauto.
    + split; [discriminate|]. intros H. exfalso. now apply (proj2 T s).
  - intros e. destruct (lattice_type c) as [t|f].
    + split; [discriminate|]. intros [_ H]. exfalso. now apply (H t).
    + destruct T as [-> T]. split; [intros H; inversion H; now subst|]. intros [-> _]. reflexivity.
  - intros s t. apply pattern_unique.
Qed.
Print Assumptions C24_lattice_type.
Example C24_ex : lattice_type (mkC 4 4 6 90 90 120) = Ok "hexagonal".
Proof. reflexivity. Qed.

(** C24.  The type is unchanged when the three lengths are multiplied by the same factor. *)
Theorem C24_scaling : forall c k, 0 < k ->
  lattice_type (mkC (k * c_a c) (k * c_b c) (k * c_c c) (c_al c) (c_be c) (c_ga c)) = lattice_type c.
Proof.
  intros c k Hk.
  assert (E : forall x y, Qeq_bool (k * x) (k * y) = Qeq_bool x y).
  { intros. apply eq_true_iff_eq. rewrite !Qeq_bool_iff. split; [|intros ->; reflexivity]. intros H. apply Qmult_inj_l in H; auto. lra. }
  unfold lattice_type, lengths, angles, distinct, mem_q; cbn [c_a c_b c_c c_al c_be c_ga]. now rewrite !E.
Qed.
Print Assumptions C24_scaling.

(** C24.  Relabelling the axes can turn an accepted cell into a rejected one, and legitimate cells of
    each of these kinds are rejected. *)
Theorem C24_axis_labels_refuted : exists a b c al be ga,
  lattice_type (mkC a b c al be ga) = Ok "tetragonal" /\ lattice_type (mkC c a b ga al be) = Err ValueError.
Proof. exists 4, 4, 6, 90, 90, 90. split; reflexivity. Qed.
Print Assumptions C24_axis_labels_refuted.
Theorem C24_triclinic_two_equal_angles_refuted : exists a b c al be ga,
  all_distinct a b c /\ ~ al == 90 /\ ~ be == 90 /\ ~ ga == 90 /\ lattice_type (mkC a b c al be ga) = Err ValueError.
Proof. exists 4, 5, 6, 80, 80, 85. unfold all_distinct. repeat split; try lra; try (intros H; vm_compute in H; discriminate H). Qed.
Print Assumptions C24_triclinic_two_equal_angles_refuted.
Theorem C24_monoclinic_unique_c_refuted : exists a b c ga,
  all_distinct a b c /\ lattice_type (mkC a b c 90 90 ga) = Err ValueError.
Proof. exists 4, 5, 6, 100. unfold all_distinct. repeat split; try (intros H; vm_compute in H; discriminate H). Qed.
Print Assumptions C24_monoclinic_unique_c_refuted.

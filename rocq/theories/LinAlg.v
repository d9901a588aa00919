(** Three-dimensional real vectors and matrices: the mathematical meaning given to the numpy
    operations dot, inner, cross, norm, det, inv and T used by the modelled code. *)
From Coq Require Import Reals Lra Psatz.
Local Open Scope R_scope.

Record v3 := V { vx : R; vy : R; vz : R }.
Record m3 := M { m11 : R; m12 : R; m13 : R; m21 : R; m22 : R; m23 : R; m31 : R; m32 : R; m33 : R }.

Definition vadd (a b : v3) : v3 := V (vx a + vx b) (vy a + vy b) (vz a + vz b).
Definition vsub (a b : v3) : v3 := V (vx a - vx b) (vy a - vy b) (vz a - vz b).
Definition vscal (k : R) (a : v3) : v3 := V (k * vx a) (k * vy a) (k * vz a).
Definition dot (a b : v3) : R := vx a * vx b + vy a * vy b + vz a * vz b.
Definition cross (a b : v3) : v3 :=
  V (vy a * vz b - vz a * vy b) (vz a * vx b - vx a * vz b) (vx a * vy b - vy a * vx b).
Definition norm (a : v3) : R := sqrt (dot a a).
Definition mv (m : m3) (a : v3) : v3 :=
  V (m11 m * vx a + m12 m * vy a + m13 m * vz a)
    (m21 m * vx a + m22 m * vy a + m23 m * vz a)
    (m31 m * vx a + m32 m * vy a + m33 m * vz a).
Definition mmul (p q : m3) : m3 :=
  M (m11 p * m11 q + m12 p * m21 q + m13 p * m31 q) (m11 p * m12 q + m12 p * m22 q + m13 p * m32 q) (m11 p * m13 q + m12 p * m23 q + m13 p * m33 q)
    (m21 p * m11 q + m22 p * m21 q + m23 p * m31 q) (m21 p * m12 q + m22 p * m22 q + m23 p * m32 q) (m21 p * m13 q + m22 p * m23 q + m23 p * m33 q)
    (m31 p * m11 q + m32 p * m21 q + m33 p * m31 q) (m31 p * m12 q + m32 p * m22 q + m33 p * m32 q) (m31 p * m13 q + m32 p * m23 q + m33 p * m33 q).
Definition mT (m : m3) : m3 := M (m11 m) (m21 m) (m31 m) (m12 m) (m22 m) (m32 m) (m13 m) (m23 m) (m33 m).
Definition mscal (k : R) (m : m3) : m3 :=
  M (k * m11 m) (k * m12 m) (k * m13 m) (k * m21 m) (k * m22 m) (k * m23 m) (k * m31 m) (k * m32 m) (k * m33 m).
Definition mI : m3 := M 1 0 0 0 1 0 0 0 1.
Definition det (m : m3) : R :=
  m11 m * (m22 m * m33 m - m23 m * m32 m) - m12 m * (m21 m * m33 m - m23 m * m31 m) + m13 m * (m21 m * m32 m - m22 m * m31 m).
(** Adjugate over determinant. *)
Definition inv (m : m3) : m3 :=
  mscal (/ det m)
   (M (m22 m * m33 m - m23 m * m32 m) (m13 m * m32 m - m12 m * m33 m) (m12 m * m23 m - m13 m * m22 m)
      (m23 m * m31 m - m21 m * m33 m) (m11 m * m33 m - m13 m * m31 m) (m13 m * m21 m - m11 m * m23 m)
      (m21 m * m32 m - m22 m * m31 m) (m12 m * m31 m - m11 m * m32 m) (m11 m * m22 m - m12 m * m21 m)).
(** Rows stacked by numpy vstack. *)
Definition rows3 (a b c : v3) : m3 := M (vx a) (vy a) (vz a) (vx b) (vy b) (vz b) (vx c) (vy c) (vz c).
Definition symmetric (m : m3) : Prop := m12 m = m21 m /\ m13 m = m31 m /\ m23 m = m32 m.
Definition upper (m : m3) : Prop := m21 m = 0 /\ m31 m = 0 /\ m32 m = 0.
(** The bilinear form of a matrix. *)
Definition form (m : m3) (a b : v3) : R := dot a (mv m b).

Lemma v3_eq a b : vx a = vx b -> vy a = vy b -> vz a = vz b -> a = b.
Proof. destruct a, b; simpl; intros; subst; reflexivity. Qed.
Lemma m3_eq p q : m11 p = m11 q -> m12 p = m12 q -> m13 p = m13 q -> m21 p = m21 q -> m22 p = m22 q -> m23 p = m23 q ->
  m31 p = m31 q -> m32 p = m32 q -> m33 p = m33 q -> p = q.
Proof. destruct p, q; simpl; intros; subst; reflexivity. Qed.

Lemma inv_r m : det m <> 0 -> mmul m (inv m) = mI.
Proof. intros H. destruct m. apply m3_eq; simpl; unfold det in *; simpl in *; field; auto. Qed.
Lemma inv_l m : det m <> 0 -> mmul (inv m) m = mI.
Proof. intros H. destruct m. apply m3_eq; simpl; unfold det in *; simpl in *; field; auto. Qed.
Lemma det_mul p q : det (mmul p q) = det p * det q.
Proof. unfold det, mmul; simpl. ring. Qed.
Lemma det_T p : det (mT p) = det p.
Proof. unfold det, mT; simpl. ring. Qed.
Lemma det_scal k p : det (mscal k p) = k ^ 3 * det p.
Proof. unfold det, mscal; simpl. ring. Qed.
Lemma det_I : det mI = 1.
Proof. unfold det, mI; simpl. ring. Qed.
Lemma mmul_assoc p q r : mmul (mmul p q) r = mmul p (mmul q r).
Proof. apply m3_eq; simpl; ring. Qed.
Lemma mmul_I_l p : mmul mI p = p.
Proof. apply m3_eq; simpl; ring. Qed.
Lemma mmul_I_r p : mmul p mI = p.
Proof. apply m3_eq; simpl; ring. Qed.
Lemma mv_mmul p q a : mv (mmul p q) a = mv p (mv q a).
Proof. apply v3_eq; simpl; ring. Qed.
Lemma dot_mv m a b : dot a (mv m b) = dot (mv (mT m) a) b.
Proof. unfold dot, mv, mT; simpl. ring. Qed.
Lemma inv_unique p q : det p <> 0 -> mmul p q = mI -> q = inv p.
Proof. intros D H. rewrite <- (mmul_I_l q), <- (inv_l p D), mmul_assoc, H. apply mmul_I_r. Qed.

Lemma dot_nonneg a : 0 <= dot a a.
Proof. unfold dot. nra. Qed.
Lemma dot_comm a b : dot a b = dot b a.
Proof. unfold dot. ring. Qed.
Lemma dot_pos a : a <> V 0 0 0 -> 0 < dot a a.
Proof.
  intros H. destruct (Rle_lt_or_eq_dec 0 (dot a a) (dot_nonneg a)); auto. exfalso. apply H.
  unfold dot in e. apply v3_eq; simpl; nra.
Qed.
Lemma cauchy_schwarz a b : dot a b ^ 2 <= dot a a * dot b b.
Proof.
  assert (H := dot_nonneg (cross a b)).
  assert (E : dot a a * dot b b = dot a b ^ 2 + dot (cross a b) (cross a b)) by (unfold dot, cross; simpl; ring). lra.
Qed.

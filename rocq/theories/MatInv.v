(** Real matrices of any size: sums, products, positive definite matrices, elimination, inverses and determinants. *)
From Coq Require Import Reals Lra Lia Psatz List.
Import ListNotations.
Local Open Scope R_scope.

Definition mat : Type := nat -> nat -> R.
Definition vec : Type := nat -> R.
Fixpoint sum (n : nat) (f : nat -> R) : R := match n with O => 0 | S n => sum n f + f n end.

(** Literal matrices. *)
Definition mx (l : list (list R)) : mat := fun i j => nth j (nth i l []) 0.
Definition diag (l : list R) : mat := fun i j => if Nat.eqb i j then nth i l 0 else 0.
Definition idm : mat := fun i j => if Nat.eqb i j then 1 else 0.
Definition tr (A : mat) : mat := fun i j => A j i.
Definition addm (A B : mat) : mat := fun i j => A i j + B i j.
(** The product with inner dimension [k]. *)
Definition mul (k : nat) (A B : mat) : mat := fun i j => sum k (fun l => A i l * B l j).
Definition mulv (k : nat) (A : mat) (x : vec) : vec := fun i => sum k (fun l => A i l * x l).

(** Inverse by elimination without exchanging rows: numpy exchanges rows, so it finds the inverse of every regular matrix;
    here [None] when a pivot vanishes, which does not happen for positive definite matrices. *)
Definition schur (M : mat) : mat := fun i j => M (S i) (S j) - M (S i) O * M O (S j) / M O O.
Fixpoint minv (n : nat) (M : mat) {struct n} : option mat :=
  match n with
  | O => Some (fun _ _ => 0)
  | S n =>
      let p := M O O in
      if Req_EM_T p 0 then None
      else match minv n (schur M) with
      | None => None
      | Some N => Some (fun i j =>
          match i, j with
          | O, O => / p + sum n (fun k => sum n (fun l => M O (S k) * N k l * M (S l) O)) / p ^ 2
          | O, S j => - sum n (fun k => M O (S k) * N k j) / p
          | S i, O => - sum n (fun l => N i l * M (S l) O) / p
          | S i, S j => N i j
          end)
      end
  end.
(** Determinant as the product of the pivots, likewise. *)
Fixpoint detm (n : nat) (M : mat) {struct n} : option R :=
  match n with
  | O => Some 1
  | S n => if Req_EM_T (M O O) 0 then None else match detm n (schur M) with None => None | Some d => Some (M O O * d) end
  end.

(** * Sums *)
Lemma sum_ext n f g : (forall i, (i < n)%nat -> f i = g i) -> sum n f = sum n g.
Proof. induction n as [|n IH]; simpl; intros H; auto. rewrite IH, H; auto. Qed.
Lemma sum_zero n f : (forall i, (i < n)%nat -> f i = 0) -> sum n f = 0.
Proof. induction n as [|n IH]; simpl; intros H; auto. rewrite IH, H; auto. ring. Qed.
Lemma sum_add n f g : sum n (fun i => f i + g i) = sum n f + sum n g.
Proof. induction n as [|n IH]; simpl; [ring|]. rewrite IH. ring. Qed.
Lemma sum_scal n k f : sum n (fun i => k * f i) = k * sum n f.
Proof. induction n as [|n IH]; simpl; [ring|]. rewrite IH. ring. Qed.
Lemma sum_scal_r n k f : sum n (fun i => f i * k) = sum n f * k.
Proof. induction n as [|n IH]; simpl; [ring|]. rewrite IH. ring. Qed.
Lemma sum_opp n f : sum n (fun i => - f i) = - sum n f.
Proof. induction n as [|n IH]; simpl; [ring|]. rewrite IH. ring. Qed.
Lemma sum_sub n f g : sum n (fun i => f i - g i) = sum n f - sum n g.
Proof. induction n as [|n IH]; simpl; [ring|]. rewrite IH. ring. Qed.
Lemma sum_swap n m (f : nat -> nat -> R) : sum n (fun i => sum m (fun j => f i j)) = sum m (fun j => sum n (fun i => f i j)).
Proof. induction n as [|n IH]; simpl; [symmetry; now apply sum_zero|]. rewrite IH, <- sum_add. reflexivity. Qed.
Lemma sum_first n f : sum (S n) f = f O + sum n (fun i => f (S i)).
Proof. induction n as [|n IH]; [simpl; ring|]. change (sum (S (S n)) f) with (sum (S n) f + f (S n)). rewrite IH. simpl. ring. Qed.
Lemma sum_le n f g : (forall i, (i < n)%nat -> f i <= g i) -> sum n f <= sum n g.
Proof. induction n as [|n IH]; simpl; intros H; [lra|]. apply Rplus_le_compat; auto. Qed.
Lemma sum_nonneg n f : (forall i, (i < n)%nat -> 0 <= f i) -> 0 <= sum n f.
Proof. induction n as [|n IH]; simpl; intros H; [lra|]. apply Rplus_le_le_0_compat; auto. Qed.
Lemma sum_pos n f i : (forall i, (i < n)%nat -> 0 <= f i) -> (i < n)%nat -> 0 < f i -> 0 < sum n f.
Proof.
  induction n as [|n IH]; simpl; intros H L P; [lia|]. assert (N := sum_nonneg n f ltac:(auto)). assert (Hn := H n ltac:(lia)).
  destruct (Nat.eq_dec i n) as [->|]; [lra|]. assert (0 < sum n f) by (apply IH; auto; lia). lra.
Qed.
Lemma sum_delta n i f : (i < n)%nat -> sum n (fun k => idm i k * f k) = f i.
Proof.
  unfold idm. induction n as [|n IH]; intros L; [lia|]. simpl. destruct (Nat.eq_dec i n) as [->|N].
  - rewrite Nat.eqb_refl, sum_zero; [ring|]. intros k Lk. destruct (Nat.eqb_spec n k); [lia|ring].
  - rewrite IH by lia. destruct (Nat.eqb_spec i n); [lia|ring].
Qed.
Lemma sum_delta_r n i f : (i < n)%nat -> sum n (fun k => f k * idm k i) = f i.
Proof.
  intros L. rewrite <- (sum_delta n i f L). apply sum_ext. intros k _. unfold idm. rewrite (Nat.eqb_sym k i). ring.
Qed.

(** * Equality up to a size *)
Definition eqm (n m : nat) (A B : mat) : Prop := forall i j, (i < n)%nat -> (j < m)%nat -> A i j = B i j.
Lemma eqm_refl n m A : eqm n m A A. Proof. intros i j _ _; reflexivity. Qed.
Lemma eqm_sym n m A B : eqm n m A B -> eqm n m B A. Proof. intros H i j Li Lj; symmetry; auto. Qed.
Lemma eqm_trans n m A B C : eqm n m A B -> eqm n m B C -> eqm n m A C.
Proof. intros H K i j Li Lj; rewrite H, K; auto. Qed.
Lemma mul_ext n k m A A' B B' : eqm n k A A' -> eqm k m B B' -> eqm n m (mul k A B) (mul k A' B').
Proof. intros H K i j Li Lj. unfold mul. apply sum_ext. intros l Ll. rewrite H, K; auto. Qed.
Lemma mul_assoc n k l m A B C : eqm n m (mul l (mul k A B) C) (mul k A (mul l B C)).
Proof.
  intros i j _ _. unfold mul. transitivity (sum l (fun a => sum k (fun b => A i b * B b a * C a j))).
  - apply sum_ext. intros a _. rewrite <- sum_scal_r. reflexivity.
  - rewrite sum_swap. apply sum_ext. intros b _. rewrite <- sum_scal. apply sum_ext. intros a _. ring.
Qed.
Lemma mul_id_l n m A : eqm n m (mul n idm A) A.
Proof. intros i j Li _. unfold mul. now rewrite sum_delta. Qed.
Lemma mul_id_r n m A : eqm n m (mul m A idm) A.
Proof. intros i j _ Lj. unfold mul. now rewrite (sum_delta_r m j (fun k => A i k)). Qed.
Lemma tr_mul n m k A B : eqm n m (tr (mul k A B)) (mul k (tr B) (tr A)).
Proof. intros i j _ _. unfold tr, mul. apply sum_ext. intros. ring. Qed.
Lemma tr_ext n m A B : eqm n m A B -> eqm m n (tr A) (tr B).
Proof. intros H i j Li Lj. now apply H. Qed.
Lemma addm_ext n m A A' B B' : eqm n m A A' -> eqm n m B B' -> eqm n m (addm A B) (addm A' B').
Proof. intros H K i j Li Lj. unfold addm. now rewrite H, K. Qed.
Lemma mulv_mul n k A B x i : mulv n (mul k A B) x i = mulv k A (mulv n B x) i.
Proof.
  unfold mulv, mul. transitivity (sum n (fun a => sum k (fun b => A i b * B b a * x a))).
  - apply sum_ext. intros a _. now rewrite <- sum_scal_r.
  - rewrite sum_swap. apply sum_ext. intros b _. rewrite <- sum_scal. apply sum_ext. intros. ring.
Qed.
Lemma mulv_ext n m A B x y i : (i < n)%nat -> eqm n m A B -> (forall j, (j < m)%nat -> x j = y j) -> mulv m A x i = mulv m B y i.
Proof. intros L H K. unfold mulv. apply sum_ext. intros j Lj. rewrite H, K; auto. Qed.

(** * Inverses *)
Definition inverse (n : nat) (M N : mat) : Prop := eqm n n (mul n M N) idm /\ eqm n n (mul n N M) idm.
Lemma inverse_unique n M N N' : eqm n n (mul n M N) idm -> eqm n n (mul n N' M) idm -> eqm n n N N'.
Proof.
  intros H K. apply eqm_trans with (mul n (mul n N' M) N).
  - apply eqm_sym. apply eqm_trans with (mul n idm N); [|apply mul_id_l]. apply mul_ext; auto. apply eqm_refl.
  - apply eqm_trans with (mul n N' (mul n M N)); [apply mul_assoc|]. apply eqm_trans with (mul n N' idm); [|apply mul_id_r]. apply mul_ext; auto. apply eqm_refl.
Qed.
Lemma minv_inverse n : forall M N, minv n M = Some N -> inverse n M N.
Proof.
  induction n as [|n IH]; intros M N H; [split; intros i j Li; lia|]. cbn [minv] in H. set (p := M O O) in *.
  destruct (Req_EM_T p 0) as [|Np]; [discriminate|]. destruct (minv n (schur M)) as [N0|] eqn:E; [|discriminate]. apply IH in E. destruct E as [E1 E2].
  injection H as <-. set (c := fun i => M (S i) O). set (r := fun j => M O (S j)).
  assert (Ms : forall i j, M (S i) (S j) = schur M i j + c i * r j / p) by (intros; unfold schur, c, r, p; ring).
  assert (SN : forall i (y : nat -> R), (i < n)%nat -> sum n (fun k => schur M i k * sum n (fun l => N0 k l * y l)) = y i).
  { intros i y Li. transitivity (mulv n (mul n (schur M) N0) y i); [symmetry; apply mulv_mul|]. unfold mulv.
    rewrite <- (sum_delta n i y Li). apply sum_ext. intros l Ll. now rewrite E1. }
  assert (NS : forall j (y : nat -> R), (j < n)%nat -> sum n (fun k => sum n (fun l => y l * N0 l k) * schur M k j) = y j).
  { intros j y Lj. transitivity (sum n (fun l => y l * mul n N0 (schur M) l j)).
    - unfold mul. transitivity (sum n (fun k => sum n (fun l => y l * (N0 l k * schur M k j)))).
      + apply sum_ext. intros k _. rewrite <- sum_scal_r. apply sum_ext. intros. ring.
      + rewrite sum_swap. apply sum_ext. intros l _. now rewrite sum_scal.
    - rewrite <- (sum_delta_r n j y Lj). apply sum_ext. intros l Ll. now rewrite E2. }
  set (rNc := sum n (fun k => sum n (fun l => r k * N0 k l * c l))).
  assert (Q1 : sum n (fun k => r k * sum n (fun l => N0 k l * c l)) = rNc) by (apply sum_ext; intros k _; rewrite <- sum_scal; apply sum_ext; intros; ring).
  assert (Q2 : sum n (fun k => sum n (fun l => r l * N0 l k) * c k) = rNc).
  { unfold rNc. rewrite sum_swap. apply sum_ext. intros k _. now rewrite <- sum_scal_r. }
  split; intros [|i] [|j] Li Lj; unfold mul; rewrite sum_first.
  - fold p. fold r. fold c. change (p * (/ p + rNc / p ^ 2) + sum n (fun k => r k * (- sum n (fun l => N0 k l * c l) / p)) = 1).
    transitivity (1 + rNc / p - sum n (fun k => r k * sum n (fun l => N0 k l * c l)) / p).
    + assert (X : sum n (fun k => r k * (- sum n (fun l => N0 k l * c l) / p)) = - (sum n (fun k => r k * sum n (fun l => N0 k l * c l)) / p)).
      { unfold Rdiv. rewrite <- sum_scal_r, <- sum_opp. apply sum_ext. intros. ring. }
      rewrite X. field. auto.
    + rewrite Q1. ring.
  - change (p * (- sum n (fun k => r k * N0 k j) / p) + sum n (fun k => r k * N0 k j) = 0). field. auto.
  - change (c i * (/ p + rNc / p ^ 2) + sum n (fun k => M (S i) (S k) * (- sum n (fun l => N0 k l * c l) / p)) = 0).
    assert (X : sum n (fun k => M (S i) (S k) * (- sum n (fun l => N0 k l * c l) / p)) =
                - (sum n (fun k => schur M i k * sum n (fun l => N0 k l * c l)) / p + c i / p ^ 2 * sum n (fun k => r k * sum n (fun l => N0 k l * c l)))).
    { unfold Rdiv at 2. rewrite <- sum_scal_r, <- sum_scal, <- sum_add, <- sum_opp. apply sum_ext. intros k _. rewrite Ms. field. auto. }
    rewrite X, SN, Q1 by lia. field. auto.
  - change (c i * (- sum n (fun k => r k * N0 k j) / p) + sum n (fun k => M (S i) (S k) * N0 k j) = idm i j).
    rewrite <- E1 by lia. unfold mul. rewrite (sum_ext n (fun k => M (S i) (S k) * N0 k j) (fun k => schur M i k * N0 k j + c i / p * (r k * N0 k j))) by (intros k _; rewrite Ms; field; auto).
    rewrite sum_add, sum_scal. field. auto.
  - change ((/ p + rNc / p ^ 2) * p + sum n (fun k => (- sum n (fun l => r l * N0 l k) / p) * c k) = 1).
    assert (X : sum n (fun k => (- sum n (fun l => r l * N0 l k) / p) * c k) = - (sum n (fun k => sum n (fun l => r l * N0 l k) * c k) / p)).
    { unfold Rdiv. rewrite <- sum_scal_r, <- sum_opp. apply sum_ext. intros. ring. }
    rewrite X, Q2. field. auto.
  - change ((/ p + rNc / p ^ 2) * r j + sum n (fun k => (- sum n (fun l => r l * N0 l k) / p) * M (S k) (S j)) = 0).
    assert (X : sum n (fun k => (- sum n (fun l => r l * N0 l k) / p) * M (S k) (S j)) =
                - (sum n (fun k => sum n (fun l => r l * N0 l k) * schur M k j) / p + r j / p ^ 2 * sum n (fun k => sum n (fun l => r l * N0 l k) * c k))).
    { unfold Rdiv at 2. rewrite <- sum_scal_r, <- sum_scal, <- sum_add, <- sum_opp. apply sum_ext. intros k _. rewrite Ms. field. auto. }
    rewrite X, NS, Q2 by lia. field. auto.
  - change ((- sum n (fun l => N0 i l * c l) / p) * p + sum n (fun k => N0 i k * c k) = 0). field. auto.
  - change ((- sum n (fun l => N0 i l * c l) / p) * r j + sum n (fun k => N0 i k * M (S k) (S j)) = idm i j).
    rewrite <- E2 by lia. unfold mul. rewrite (sum_ext n (fun k => N0 i k * M (S k) (S j)) (fun k => N0 i k * schur M k j + r j / p * (N0 i k * c k))) by (intros k _; rewrite Ms; field; auto).
    rewrite sum_add, sum_scal. field. auto.
Qed.
Lemma minv_ext n : forall M M' N, eqm n n M M' -> minv n M = Some N -> exists N', minv n M' = Some N' /\ eqm n n N N'.
Proof.
  intros M M' N H E. assert (X : forall n M M', eqm n n M M' -> (exists N, minv n M = Some N) -> exists N', minv n M' = Some N').
  { clear. induction n as [|n IH]; intros M M' H [N E]; cbn [minv] in *; [eauto|]. rewrite <- H by lia. destruct (Req_EM_T (M O O) 0); [discriminate|].
    destruct (minv n (schur M)) as [N0|] eqn:E0; [|discriminate]. destruct (IH (schur M) (schur M')) as [N1 E1]; [|eauto|rewrite E1; eauto].
    intros i j Li Lj. unfold schur. now rewrite !H by lia. }
  destruct (X n M M' H) as [N' E']; [eauto|]. exists N'. split; auto. apply minv_inverse in E. apply minv_inverse in E'. destruct E as [E1 E2], E' as [E3 E4].
  apply inverse_unique with M; auto. intros i j Li Lj. rewrite <- E4 by auto. apply (mul_ext n n n); auto. apply eqm_refl.
Qed.

(** * Quadratic forms *)
Definition qf (n : nat) (M : mat) (x : vec) : R := sum n (fun i => sum n (fun j => x i * M i j * x j)).
Definition dotv (n : nat) (x y : vec) : R := sum n (fun i => x i * y i).
Definition symm (n : nat) (M : mat) : Prop := eqm n n M (tr M).
Definition nzv (n : nat) (x : vec) : Prop := exists i, (i < n)%nat /\ x i <> 0.
Definition posdef (n : nat) (M : mat) : Prop := symm n M /\ forall x, nzv n x -> 0 < qf n M x.
(** The Loewner order. *)
Definition le (n : nat) (A B : mat) : Prop := forall x, qf n A x <= qf n B x.

Lemma nzv_dec n x : nzv n x \/ forall i, (i < n)%nat -> x i = 0.
Proof.
  induction n as [|n [[i [L N]]|IH]]; [right; intros; lia|left; exists i; split; auto; lia|].
  destruct (Req_EM_T (x n) 0) as [Z|Z]; [right|left; exists n; split; auto; lia]. intros i L. destruct (Nat.eq_dec i n) as [->|]; auto. apply IH. lia.
Qed.
Lemma qf_ext n M M' x y : eqm n n M M' -> (forall i, (i < n)%nat -> x i = y i) -> qf n M x = qf n M' y.
Proof. intros H K. unfold qf. apply sum_ext. intros i Li. apply sum_ext. intros j Lj. rewrite H, !K; auto. Qed.
Lemma qf_zero n M x : (forall i, (i < n)%nat -> x i = 0) -> qf n M x = 0.
Proof. intros K. unfold qf. apply sum_zero. intros i Li. apply sum_zero. intros j Lj. rewrite K by auto. ring. Qed.
Lemma posdef_ext n M M' : eqm n n M M' -> posdef n M -> posdef n M'.
Proof.
  intros H [S P]. split.
  - intros i j Li Lj. unfold tr. rewrite <- !H by auto. now apply S.
  - intros x N. rewrite <- (qf_ext n M M' x x); auto.
Qed.
Lemma posdef_nonneg n M x : posdef n M -> 0 <= qf n M x.
Proof. intros [_ P]. destruct (nzv_dec n x) as [N|Z]; [left; auto|]. rewrite qf_zero; auto. lra. Qed.
Lemma qf_dot n M x : qf n M x = dotv n x (mulv n M x).
Proof. unfold qf, dotv, mulv. apply sum_ext. intros i _. rewrite <- sum_scal. apply sum_ext. intros. ring. Qed.
Lemma qf_add n A B x : qf n (addm A B) x = qf n A x + qf n B x.
Proof. unfold qf, addm. rewrite <- sum_add. apply sum_ext. intros i _. rewrite <- sum_add. apply sum_ext. intros. ring. Qed.
Lemma dotv_tr n k A x y : dotv n x (mulv k A y) = dotv k (mulv n (tr A) x) y.
Proof.
  unfold dotv, mulv, tr. transitivity (sum n (fun i => sum k (fun j => x i * A i j * y j))).
  - apply sum_ext. intros i _. rewrite <- sum_scal. apply sum_ext. intros. ring.
  - rewrite sum_swap. apply sum_ext. intros j _. rewrite <- sum_scal_r. apply sum_ext. intros. ring.
Qed.
Lemma dotv_ext n x y x' y' : (forall i, (i < n)%nat -> x i = x' i) -> (forall i, (i < n)%nat -> y i = y' i) -> dotv n x y = dotv n x' y'.
Proof. intros H K. unfold dotv. apply sum_ext. intros i L. now rewrite H, K. Qed.
Lemma dotv_comm n x y : dotv n x y = dotv n y x.
Proof. unfold dotv. apply sum_ext. intros. ring. Qed.
Lemma qf_congr n k A N x : qf n (mul k A (mul k N (tr A))) x = qf k N (mulv n (tr A) x).
Proof.
  rewrite !qf_dot. transitivity (dotv n x (mulv k A (mulv k N (mulv n (tr A) x)))); [|apply dotv_tr].
  apply dotv_ext; auto. intros i Li. rewrite mulv_mul. apply (mulv_ext n k); auto; [apply eqm_refl|]. intros j Lj. apply mulv_mul.
Qed.

(** Congruence: A N A^T is positive definite when N is and A has full row rank. *)
Lemma symm_congr n k A N : symm k N -> symm n (mul k A (mul k N (tr A))).
Proof.
  intros H i j Li Lj. unfold mul, tr. transitivity (sum k (fun l => sum k (fun a => A i l * N l a * A j a))).
  - apply sum_ext. intros l _. rewrite <- sum_scal. apply sum_ext. intros. ring.
  - rewrite sum_swap. apply sum_ext. intros a La. rewrite <- sum_scal. apply sum_ext. intros l Ll. rewrite (H l a) by auto. unfold tr. ring.
Qed.
Definition full_rank (n k : nat) (A : mat) : Prop := forall x, (forall j, (j < k)%nat -> mulv n (tr A) x j = 0) -> forall i, (i < n)%nat -> x i = 0.
Lemma posdef_congr n k A N : posdef k N -> full_rank n k A -> posdef n (mul k A (mul k N (tr A))).
Proof.
  intros [S P] F. split; [now apply symm_congr|]. intros x Nx. rewrite qf_congr. apply P.
  destruct (nzv_dec k (mulv n (tr A) x)) as [|Z]; auto. exfalso. destruct Nx as [i [L Ni]]. apply Ni. now apply F.
Qed.
Lemma posdef_add_nonneg n A B : posdef n A -> symm n B -> (forall x, 0 <= qf n B x) -> posdef n (addm A B).
Proof.
  intros [S P] SB H. split.
  - intros i j Li Lj. unfold tr, addm. rewrite S, SB by auto. reflexivity.
  - intros x N. rewrite qf_add. assert (X := H x). assert (Y := P x N). lra.
Qed.
Lemma nonneg_congr n k A N : (forall x, 0 <= qf k N x) -> forall x, 0 <= qf n (mul k A (mul k N (tr A))) x.
Proof. intros H x. rewrite qf_congr. apply H. Qed.

(** Diagonal matrices. *)
Lemma qf_diag n d x : qf n (diag d) x = sum n (fun i => nth i d 0 * x i ^ 2).
Proof.
  unfold qf, diag. apply sum_ext. intros i Li. rewrite (sum_ext n _ (fun j => idm i j * (x i * nth i d 0 * x j))).
  - rewrite sum_delta by auto. ring.
  - intros j _. unfold idm. destruct (Nat.eqb i j); ring.
Qed.
Lemma symm_diag n d : symm n (diag d).
Proof. intros i j _ _. unfold tr, diag. rewrite (Nat.eqb_sym j i). destruct (Nat.eqb_spec i j); subst; auto. Qed.
Lemma posdef_diag n d : (forall i, (i < n)%nat -> 0 < nth i d 0) -> posdef n (diag d).
Proof.
  intros H. split; [apply symm_diag|]. intros x [i [L N]]. rewrite qf_diag. apply (sum_pos n _ i); auto.
  - intros j Lj. assert (X := H j Lj). assert (0 <= x j ^ 2) by apply pow2_ge_0. apply Rmult_le_pos; lra.
  - apply Rmult_lt_0_compat; auto. assert (0 < x i ^ 2) by (rewrite <- Rsqr_pow2; now apply Rsqr_pos_lt). lra.
Qed.

(** Schur complement of a positive definite matrix. *)
Lemma posdef_pivot n M : posdef (S n) M -> 0 < M O O.
Proof.
  intros [_ P]. assert (H := P (fun i => match i with O => 1 | _ => 0 end) ltac:(exists O; split; [lia|lra])).
  unfold qf in H. rewrite sum_first in H. rewrite (sum_zero n) in H by (intros i _; apply sum_zero; intros j _; ring).
  rewrite sum_first in H. rewrite (sum_zero n) in H by (intros j _; ring). lra.
Qed.
Lemma posdef_schur n M : posdef (S n) M -> posdef n (schur M).
Proof.
  intros H. assert (Pp := posdef_pivot n M H). destruct H as [S P]. set (p := M O O) in *. split.
  - intros i j Li Lj. unfold tr, schur. rewrite (S (Datatypes.S i) (Datatypes.S j)), (S (Datatypes.S i) O), (S O (Datatypes.S j)) by lia. unfold tr. fold p. field. lra.
  - intros y [i0 [L0 N0]]. set (ry := sum n (fun j => M O (Datatypes.S j) * y j)).
    assert (Pos := P (fun i => match i with O => - ry / p | Datatypes.S i => y i end) ltac:(exists (Datatypes.S i0); split; [lia|auto])).
    replace (qf n (schur M) y) with (qf (Datatypes.S n) M (fun i => match i with O => - ry / p | Datatypes.S i => y i end)); auto. clear Pos.
    assert (Cr : sum n (fun i => y i * M (Datatypes.S i) O) = ry). { unfold ry. apply sum_ext. intros i Li. rewrite (S (Datatypes.S i) O) by lia. unfold tr. ring. }
    unfold qf at 1. rewrite sum_first. rewrite sum_first. fold p.
    assert (A1 : sum n (fun j => - ry / p * M O (Datatypes.S j) * y j) = - ry / p * ry). { rewrite (sum_ext n _ (fun j => - ry / p * (M O (Datatypes.S j) * y j))) by (intros; ring). rewrite sum_scal. reflexivity. }
    rewrite A1. assert (A2 : sum n (fun i => sum (Datatypes.S n) (fun j => y i * M (Datatypes.S i) j * match j with O => - ry / p | Datatypes.S j => y j end)) =
       - ry / p * ry + sum n (fun i => sum n (fun j => y i * M (Datatypes.S i) (Datatypes.S j) * y j))).
    { transitivity (- ry / p * sum n (fun i => y i * M (Datatypes.S i) O) + sum n (fun i => sum n (fun j => y i * M (Datatypes.S i) (Datatypes.S j) * y j))); [|now rewrite Cr]. rewrite <- sum_scal, <- sum_add. apply sum_ext. intros i _. rewrite sum_first. ring. }
    rewrite A2. assert (A3 : qf n (schur M) y = sum n (fun i => sum n (fun j => y i * M (Datatypes.S i) (Datatypes.S j) * y j)) - ry * ry / p).
    { unfold qf. transitivity (sum n (fun i => sum n (fun j => y i * M (Datatypes.S i) (Datatypes.S j) * y j) - y i * M (Datatypes.S i) O * (ry / p))).
      - apply sum_ext. intros i _. replace (y i * M (Datatypes.S i) O * (ry / p)) with (sum n (fun j => y i * M (Datatypes.S i) O * / p * (M O (Datatypes.S j) * y j))) by (rewrite sum_scal; fold ry; unfold Rdiv; ring).
        rewrite <- sum_sub. apply sum_ext. intros j _. unfold schur. fold p. unfold Rdiv. ring.
      - rewrite sum_sub. f_equal. rewrite sum_scal_r, Cr. unfold Rdiv. ring. }
    rewrite A3. field. lra.
Qed.

(** Positive definite matrices are inverted; the determinant is positive. *)
Lemma posdef_minv n : forall M, posdef n M -> exists N, minv n M = Some N.
Proof.
  induction n as [|n IH]; intros M H; cbn [minv]; [eauto|]. assert (P := posdef_pivot n M H). destruct (Req_EM_T (M O O) 0); [lra|].
  destruct (IH _ (posdef_schur n M H)) as [N ->]. eauto.
Qed.
Lemma posdef_detm n : forall M, posdef n M -> exists d, detm n M = Some d /\ 0 < d.
Proof.
  induction n as [|n IH]; intros M H; cbn [detm]; [exists 1; split; auto; lra|]. assert (P := posdef_pivot n M H). destruct (Req_EM_T (M O O) 0); [lra|].
  destruct (IH _ (posdef_schur n M H)) as [d [-> Pd]]. eexists. split; [reflexivity|]. now apply Rmult_lt_0_compat.
Qed.
Lemma inverse_posdef n M N : posdef n M -> inverse n M N -> posdef n N.
Proof.
  intros [S P] [H K]. assert (SN : symm n N).
  { apply inverse_unique with M; auto. apply eqm_trans with (mul n (tr N) (tr M)).
    - apply mul_ext; auto. apply eqm_refl.
    - apply eqm_trans with (tr (mul n M N)); [apply eqm_sym, tr_mul|]. intros i j Li Lj. unfold tr. rewrite H by auto. unfold idm. now rewrite Nat.eqb_sym. }
  split; auto. intros x Nx.
  assert (Back : forall i, (i < n)%nat -> mulv n M (mulv n N x) i = x i).
  { intros i Li. rewrite <- mulv_mul. unfold mulv. rewrite <- (sum_delta n i x Li). apply sum_ext. intros l Ll. now rewrite H. }
  assert (E : qf n N x = qf n M (mulv n N x)).
  { rewrite !qf_dot. rewrite dotv_comm. apply dotv_ext; auto. intros i Li. symmetry. now apply Back. }
  rewrite E. apply P. destruct (nzv_dec n (mulv n N x)) as [|Z]; auto. exfalso. destruct Nx as [i [L Ni]]. apply Ni. rewrite <- Back by auto. unfold mulv at 1. apply sum_zero. intros l Ll. rewrite Z by auto. ring.
Qed.
Lemma minv_posdef n M : posdef n M -> exists N, minv n M = Some N /\ inverse n M N /\ posdef n N.
Proof.
  intros H. destruct (posdef_minv n M H) as [N E]. exists N. split; auto. assert (I := minv_inverse n M N E). split; auto. now apply inverse_posdef with M.
Qed.

(** The variational characterisation of the inverse, and inversion reversing the order. *)
Lemma inverse_var n M N x y : posdef n M -> inverse n M N -> 2 * dotv n x y - qf n M y <= qf n N x.
Proof.
  intros HM I. assert (HN := inverse_posdef n M N HM I). destruct I as [H K]. set (z := mulv n N x).
  assert (Back : forall i, (i < n)%nat -> mulv n M z i = x i).
  { intros i Li. unfold z. rewrite <- mulv_mul. unfold mulv. rewrite <- (sum_delta n i x Li). apply sum_ext. intros l Ll. now rewrite H. }
  assert (E1 : qf n N x = dotv n x z) by apply qf_dot.
  assert (E2 : dotv n z (mulv n M z) = dotv n x z). { rewrite dotv_comm. apply dotv_ext; auto. }
  assert (E3 : dotv n y (mulv n M z) = dotv n x y). { rewrite dotv_comm. apply dotv_ext; auto. }
  assert (E4 : dotv n z (mulv n M y) = dotv n x y).
  { rewrite dotv_tr. rewrite dotv_comm. rewrite <- E3. apply dotv_ext; auto. intros i Li. apply (mulv_ext n n); auto. apply eqm_sym, HM. }
  assert (D := posdef_nonneg n M (fun i => z i - y i) HM). rewrite qf_dot in D.
  assert (E5 : dotv n (fun i => z i - y i) (mulv n M (fun i => z i - y i)) = dotv n z (mulv n M z) - dotv n z (mulv n M y) - dotv n y (mulv n M z) + dotv n y (mulv n M y)).
  { assert (X : forall i, mulv n M (fun i => z i - y i) i = mulv n M z i - mulv n M y i). { intros. unfold mulv. rewrite <- sum_sub. apply sum_ext. intros. ring. }
    unfold dotv at 1. rewrite (sum_ext n _ (fun i => (z i * mulv n M z i - z i * mulv n M y i) - (y i * mulv n M z i - y i * mulv n M y i))) by (intros; rewrite X; ring).
    rewrite !sum_sub. unfold dotv. ring. }
  rewrite E5, E2, E3, E4 in D. rewrite (qf_dot n M y), E1. lra.
Qed.
Lemma inverse_var_eq n M N x : posdef n M -> inverse n M N -> qf n N x = 2 * dotv n x (mulv n N x) - qf n M (mulv n N x).
Proof.
  intros HM [H K]. set (z := mulv n N x).
  assert (Back : forall i, (i < n)%nat -> mulv n M z i = x i).
  { intros i Li. unfold z. rewrite <- mulv_mul. unfold mulv. rewrite <- (sum_delta n i x Li). apply sum_ext. intros l Ll. now rewrite H. }
  rewrite (qf_dot n M z). rewrite (dotv_ext n z (mulv n M z) z x) by auto. rewrite (dotv_comm n z x), qf_dot. fold z. ring.
Qed.
Lemma inverse_anti n A B A' B' : posdef n A -> posdef n B -> inverse n A A' -> inverse n B B' -> le n A B -> le n B' A'.
Proof.
  intros HA HB IA IB L x. rewrite (inverse_var_eq n B B') by auto. assert (V := inverse_var n A A' x (mulv n B' x) HA IA). assert (Q := L (mulv n B' x)). lra.
Qed.
Lemma le_congr n k A N N' : le k N N' -> le n (mul k A (mul k N (tr A))) (mul k A (mul k N' (tr A))).
Proof. intros H x. rewrite !qf_congr. apply H. Qed.
Lemma le_refl n A : le n A A. Proof. intros x; lra. Qed.
Lemma le_trans n A B C : le n A B -> le n B C -> le n A C. Proof. intros H K x. specialize (H x). specialize (K x). lra. Qed.
Lemma le_add n A B C D : le n A B -> le n C D -> le n (addm A C) (addm B D).
Proof. intros H K x. rewrite !qf_add. specialize (H x). specialize (K x). lra. Qed.
Lemma le_ext n A A' B B' : eqm n n A A' -> eqm n n B B' -> le n A B -> le n A' B'.
Proof. intros H K L x. rewrite <- (qf_ext n A A' x x), <- (qf_ext n B B' x x); auto. Qed.
Lemma le_diag n d e : (forall i, (i < n)%nat -> nth i d 0 <= nth i e 0) -> le n (diag d) (diag e).
Proof. intros H x. rewrite !qf_diag. apply sum_le. intros i L. apply Rmult_le_compat_r; [apply pow2_ge_0|auto]. Qed.

(** Reflections: conjugating by a diagonal matrix of signs. *)
Definition signs (s : vec) : Prop := forall i, s i * s i = 1.
Definition conj_by (s t : vec) (A : mat) : mat := fun i j => s i * A i j * t j.
Lemma mul_conj n m k s t u A B : signs t -> eqm n m (mul k (conj_by s t A) (conj_by t u B)) (conj_by s u (mul k A B)).
Proof.
  intros H i j _ _. unfold mul, conj_by. rewrite <- sum_scal, <- sum_scal_r. apply sum_ext. intros l _.
  transitivity (s i * A i l * (t l * t l) * B l j * u j); [ring|]. rewrite H. ring.
Qed.
Lemma tr_conj n m s t A : eqm n m (tr (conj_by s t A)) (conj_by t s (tr A)).
Proof. intros i j _ _. unfold tr, conj_by. ring. Qed.
Lemma inverse_conj n s M N : signs s -> inverse n M N -> inverse n (conj_by s s M) (conj_by s s N).
Proof.
  intros H [A B]. assert (Id : eqm n n (conj_by s s idm) idm).
  { intros i j _ _. unfold conj_by, idm. destruct (Nat.eqb_spec i j); subst; [rewrite Rmult_1_r; apply H|ring]. }
  split; (apply eqm_trans with (conj_by s s idm); [|auto]); [apply eqm_trans with (conj_by s s (mul n M N))|apply eqm_trans with (conj_by s s (mul n N M))]; try (now apply mul_conj);
    intros i j Li Lj; unfold conj_by; [now rewrite A|now rewrite B].
Qed.
Lemma detm_ext n : forall M M', eqm n n M M' -> detm n M = detm n M'.
Proof.
  induction n as [|n IH]; intros M M' H; cbn [detm]; auto. rewrite (H O O) by lia. destruct (Req_EM_T (M' O O) 0); auto. rewrite (IH (schur M) (schur M')); auto.
  intros i j Li Lj. unfold schur. now rewrite !H by lia.
Qed.
Lemma detm_conj n : forall s M, signs s -> detm n (conj_by s s M) = detm n M.
Proof.
  induction n as [|n IH]; intros s M H; cbn [detm]; auto.
  assert (E : conj_by s s M O O = M O O) by (unfold conj_by; transitivity (s O * s O * M O O); [ring|rewrite H; ring]). rewrite E.
  destruct (Req_EM_T (M O O) 0) as [|N]; auto.
  rewrite (detm_ext n (schur (conj_by s s M)) (conj_by (fun i => s (S i)) (fun i => s (S i)) (schur M))); [rewrite IH; auto; intros i; apply H|].
  intros i j _ _. unfold schur. rewrite E. unfold conj_by. transitivity (s (S i) * M (S i) (S j) * s (S j) - (s O * s O) * (s (S i) * M (S i) O * (M O (S j) * s (S j)) / M O O)); [field; auto|]. rewrite H. field. auto.
Qed.
Lemma posdef_conj n s M : signs s -> posdef n M -> posdef n (conj_by s s M).
Proof.
  intros H [S P]. split.
  - intros i j Li Lj. unfold tr, conj_by. rewrite S by auto. unfold tr. ring.
  - intros x [i [L N]]. replace (qf n (conj_by s s M) x) with (qf n M (fun i => s i * x i)).
    + apply P. exists i. split; auto. intros Z. apply N. transitivity (s i * s i * x i); [rewrite H; ring|]. rewrite Rmult_assoc, Z. ring.
    + unfold qf, conj_by. apply sum_ext. intros a _. apply sum_ext. intros b _. ring.
Qed.

(** Two matrices that differ by signs of rows and columns. *)
Definition rel (n m : nat) (s u : vec) (A B : mat) : Prop := eqm n m B (conj_by s u A).
Definition orel (n : nat) (s : vec) (A B : option mat) : Prop :=
  match A, B with Some A, Some B => rel n n s s A B | None, None => True | _, _ => False end.
Lemma rel_tr n m s u A B : rel n m s u A B -> rel m n u s (tr A) (tr B).
Proof. intros H i j Li Lj. unfold tr. rewrite H by auto. unfold conj_by. ring. Qed.
Lemma rel_mul n m k s u v A B A' B' : signs u -> rel n k s u A A' -> rel k m u v B B' -> rel n m s v (mul k A B) (mul k A' B').
Proof. intros U HA HB. apply eqm_trans with (mul k (conj_by s u A) (conj_by u v B)); [now apply mul_ext|now apply mul_conj]. Qed.
Lemma rel_sandwich n k s u A A' N N' : signs u -> rel n k s u A A' -> rel k k u u N N' -> rel n n s s (mul k A (mul k N (tr A))) (mul k A' (mul k N' (tr A'))).
Proof. intros U HA HN. apply rel_mul with u; auto. apply rel_mul with u; auto. now apply rel_tr. Qed.
Lemma rel_add n m s u A A' B B' : rel n m s u A A' -> rel n m s u B B' -> rel n m s u (addm A B) (addm A' B').
Proof. intros H K i j Li Lj. unfold addm. rewrite H, K by auto. unfold conj_by. ring. Qed.
Lemma rel_diag n s d : signs s -> rel n n s s (diag d) (diag d).
Proof. intros H i j _ _. unfold conj_by, diag. destruct (Nat.eqb_spec i j) as [->|]; [|ring]. transitivity (s j * s j * nth j d 0); [rewrite H; ring|ring]. Qed.
Lemma rel_det n s A B : signs s -> rel n n s s A B -> detm n B = detm n A.
Proof. intros S H. rewrite (detm_ext n B _ H). now apply detm_conj. Qed.
Lemma minv_conj_some n : forall s M, signs s -> (exists N, minv n M = Some N) -> exists N, minv n (conj_by s s M) = Some N.
Proof.
  induction n as [|n IH]; intros s M H [N EN]; cbn [minv] in *; eauto.
  assert (E : conj_by s s M O O = M O O) by (unfold conj_by; transitivity (s O * s O * M O O); [ring|rewrite H; ring]). rewrite E.
  destruct (Req_EM_T (M O O) 0) as [|Nz]; [discriminate|]. destruct (minv n (schur M)) as [N0|] eqn:E0; [|discriminate].
  destruct (IH (fun i => s (S i)) (schur M) (fun i => H (S i)) (ex_intro _ N0 E0)) as [N1 E1].
  assert (X : eqm n n (conj_by (fun i => s (S i)) (fun i => s (S i)) (schur M)) (schur (conj_by s s M))).
  { intros i j _ _. unfold schur. rewrite E. unfold conj_by. symmetry. transitivity (s (S i) * M (S i) (S j) * s (S j) - (s O * s O) * (s (S i) * M (S i) O * (M O (S j) * s (S j)) / M O O)); [field; auto|]. rewrite H. field. auto. }
  destruct (minv_ext n _ _ _ X E1) as [N2 [E2 _]]. rewrite E2. eauto.
Qed.
Lemma rel_minv n s A B : signs s -> rel n n s s A B -> orel n s (minv n A) (minv n B).
Proof.
  intros S H. destruct (minv n A) as [N|] eqn:E.
  - destruct (minv_conj_some n s A S (ex_intro _ N E)) as [N1 E1]. destruct (minv_ext n _ B N1 (eqm_sym _ _ _ _ H) E1) as [N2 [E2 X]]. rewrite E2. simpl.
    apply minv_inverse in E. apply minv_inverse in E1. assert (J := inverse_conj n s A N S E). apply eqm_trans with N1; [now apply eqm_sym|].
    destruct E1 as [E3 E4], J as [J1 J2]. now apply inverse_unique with (conj_by s s A).
  - destruct (minv n B) as [N|] eqn:E2; simpl; auto. assert (H' : eqm n n (conj_by s s B) A).
    { intros i j Li Lj. unfold conj_by. rewrite H by auto. unfold conj_by. transitivity ((s i * s i) * A i j * (s j * s j)); [ring|rewrite !S; ring]. }
    destruct (minv_conj_some n s B S (ex_intro _ N E2)) as [N1 E1]. destruct (minv_ext n _ A N1 H' E1) as [N2 [E3 _]]. congruence.
Qed.
Lemma rel_entry n s A B i : signs s -> rel n n s s A B -> (i < n)%nat -> B i i = A i i.
Proof. intros S H L. rewrite H by auto. unfold conj_by. transitivity (s i * s i * A i i); [ring|rewrite S; ring]. Qed.

(** The resolution matrix by maximisation over the rays through the spectrometer. *)
From Coq Require Import String List ZArith Reals Lra Lia Psatz Bool.
From Verif Require Import Base MatInv TasModel TasProof TasWide.
Import ListNotations.
Local Open Scope R_scope.

Lemma mulv_id n x i : (i < n)%nat -> mulv n idm x i = x i.
Proof. intros. apply sum_delta; auto. Qed.
Lemma inverse_mulv n M N x i : inverse n M N -> (i < n)%nat -> mulv n M (mulv n N x) i = x i.
Proof. intros [A _] L. rewrite <- mulv_mul. rewrite <- (mulv_id n x i L). apply mulv_ext with n; auto. Qed.
(** [qf N x] is the maximum of [2 x.y - qf M y]. *)
Lemma var_max n M N x : posdef n M -> inverse n M N -> (forall y, 2 * dotv n x y - qf n M y <= qf n N x) /\ 2 * dotv n x (mulv n N x) - qf n M (mulv n N x) = qf n N x.
Proof. intros P I. split; [intros y; now apply inverse_var|symmetry; now apply inverse_var_eq]. Qed.
Lemma inverse_comm n M N : inverse n M N -> inverse n N M. Proof. intros [A B]. split; auto. Qed.
(** [qf H g] is the minimum of [qf K x] over all x with D x = g. *)
Lemma constrained n k K Ki D P H : posdef k K -> inverse k K Ki -> posdef k Ki -> P = mul k D (mul k Ki (tr D)) -> posdef n P -> inverse n P H ->
  (forall x, qf n H (mulv k D x) <= qf k K x) /\ forall g, exists x, (forall i, (i < n)%nat -> mulv k D x i = g i) /\ qf k K x = qf n H g.
Proof.
  intros PK IK PKi EP PP IP. assert (QP : forall z, qf n P z = qf k Ki (mulv n (tr D) z)) by (intros; rewrite EP; apply qf_congr).
  assert (HP := inverse_posdef n P H PP IP).
  assert (HH : forall g, qf n P (mulv n H g) = qf n H g). { intros g. rewrite !qf_dot. rewrite dotv_comm. apply dotv_ext; auto. intros i L. now apply inverse_mulv. }
  split.
  - intros x. assert (V := inverse_var k Ki K x (mulv n (tr D) (mulv n H (mulv k D x))) PKi (inverse_comm _ _ _ IK)). rewrite <- QP, HH in V.
    assert (E : dotv k x (mulv n (tr D) (mulv n H (mulv k D x))) = qf n H (mulv k D x)). { rewrite qf_dot. rewrite (dotv_tr k n (tr D)). apply dotv_ext; auto. }
    rewrite E in V. lra.
  - intros g. exists (mulv k Ki (mulv n (tr D) (mulv n H g))). split.
    + intros i L. transitivity (mulv n P (mulv n H g) i); [|now apply inverse_mulv]. rewrite EP. symmetry. rewrite mulv_mul. apply mulv_ext with n; auto; [apply eqm_refl|]. intros j Lj. apply mulv_mul.
    + rewrite qf_dot. transitivity (dotv k (mulv k Ki (mulv n (tr D) (mulv n H g))) (mulv n (tr D) (mulv n H g))); [apply dotv_ext; auto; intros i L; now apply inverse_mulv|].
      rewrite dotv_comm, <- qf_dot, <- QP. apply HH.
Qed.
(** Inverses of block and diagonal matrices. *)
Lemma inverse_diag n d : (forall i, (i < n)%nat -> nth i d 0 <> 0) -> inverse n (diag d) (diag (map Rinv d)).
Proof.
  intros H. assert (Z : forall i, (i < n)%nat -> nth i (map Rinv d) 0 = / nth i d 0). { intros i L. rewrite nth_indep with (d' := / 0). apply map_nth. rewrite map_length. destruct (le_lt_dec (length d) i); auto. exfalso. apply (H i L). now apply nth_overflow. }
  assert (X : forall a b, eqm n n (mul n (diag a) (diag b)) (fun i j => if Nat.eqb i j then nth i a 0 * nth i b 0 else 0)).
  { intros a b i j Li Lj. unfold mul. transitivity (sum n (fun l => idm i l * (nth i a 0 * diag b l j))).
    - apply sum_ext. intros l _. unfold idm, diag. destruct (Nat.eqb i l); [ring|ring].
    - rewrite sum_delta by auto. unfold diag. destruct (Nat.eqb i j); ring. }
  split; intros i j Li Lj; rewrite X by auto; unfold idm; destruct (Nat.eqb_spec i j); auto; subst; rewrite Z by auto; field; now apply H.
Qed.
Lemma sum_split n m f : sum (n + m) f = sum n f + sum m (fun i => f (n + i)%nat).
Proof. induction m as [|m IH]; simpl; [rewrite Nat.add_0_r; ring|]. rewrite Nat.add_succ_r. simpl. rewrite IH. ring. Qed.
Lemma mul_blk n m A B A' B' : eqm (n + m) (n + m) (mul (n + m) (blk n A B) (blk n A' B')) (blk n (mul n A A') (mul m B B')).
Proof.
  intros i j Li Lj. unfold mul at 1. rewrite sum_split. unfold blk. destruct (Nat.ltb_spec i n) as [Hi|Hi], (Nat.ltb_spec j n) as [Hj|Hj]; simpl.
  - transitivity (sum n (fun l => A i l * A' l j) + 0); [|unfold mul; ring]. f_equal; [apply sum_ext|apply sum_zero].
    + intros l L. rewrite (proj2 (Nat.ltb_lt l n) L). simpl. auto.
    + intros l L. rewrite (proj2 (Nat.ltb_ge (n + l) n)) by lia. rewrite (proj2 (Nat.leb_gt n i)) by lia. simpl. ring.
  - rewrite (proj2 (Nat.leb_gt n i)) by lia. simpl. rewrite (sum_zero n), (sum_zero m); [ring| |].
    + intros l L. rewrite (proj2 (Nat.ltb_ge (n + l) n)) by lia. simpl. ring.
    + intros l L. rewrite (proj2 (Nat.ltb_lt l n) L), (proj2 (Nat.leb_gt n l)) by lia. simpl. ring.
  - rewrite (proj2 (Nat.leb_gt n j)) by lia. rewrite andb_false_r. rewrite (sum_zero n), (sum_zero m); [ring| |].
    + intros l L. rewrite andb_false_r. rewrite (proj2 (Nat.ltb_ge (n + l) n)) by lia. simpl. ring.
    + intros l L. rewrite (proj2 (Nat.leb_gt n l)) by lia. rewrite andb_false_r. ring.
  - rewrite (proj2 (Nat.leb_le n i)), (proj2 (Nat.leb_le n j)) by lia. simpl. transitivity (0 + sum m (fun l => B (i - n)%nat l * B' l (j - n)%nat)); [|unfold mul; ring]. f_equal; [apply sum_zero|apply sum_ext].
    + intros l L. rewrite (proj2 (Nat.leb_gt n l)) by lia. ring.
    + intros l L. rewrite (proj2 (Nat.ltb_ge (n + l) n)), (proj2 (Nat.leb_le n (n + l))) by lia. simpl. replace (n + l - n)%nat with l by lia. auto.
Qed.
Lemma blk_ext n m A B A' B' : eqm n n A A' -> eqm m m B B' -> eqm (n + m) (n + m) (blk n A B) (blk n A' B').
Proof.
  intros H K i j Li Lj. unfold blk. destruct (Nat.ltb_spec i n), (Nat.ltb_spec j n); simpl; auto; destruct (Nat.leb_spec n i), (Nat.leb_spec n j); simpl; auto; try lia. apply K; lia.
Qed.
Lemma blk_id n m : eqm (n + m) (n + m) (blk n idm idm) idm.
Proof.
  intros i j Li Lj. unfold blk, idm. destruct (Nat.ltb_spec i n), (Nat.ltb_spec j n); simpl; auto; destruct (Nat.leb_spec n i), (Nat.leb_spec n j); simpl; try lia; destruct (Nat.eqb_spec i j); try lia; auto.
  - subst. now rewrite Nat.eqb_refl.
  - destruct (Nat.eqb_spec (i - n) (j - n)); auto; lia.
Qed.
Lemma inverse_blk n m A B A' B' : inverse n A A' -> inverse m B B' -> inverse (n + m) (blk n A B) (blk n A' B').
Proof.
  intros [A1 A2] [B1 B2]. split; (eapply eqm_trans; [apply mul_blk|]); (eapply eqm_trans; [|apply blk_id]); now apply blk_ext.
Qed.

(** A spectrometer to try the theorems about resolution on. *)
From Coq Require Import String List ZArith Reals Lra Lia Psatz Bool.
From Verif Require Import Base MatInv TasModel TasProof TasWide.
Import ListNotations.
Local Open Scope R_scope.

Definition case_x (k dir : R) : crystal := mkX 2 (25 * k) (Some 30) dir (Some (10 * k)) (Some 8) (Some (1 / 2)) (Some 100) (Some 200).
(** A guide, then collimators; a sample with sizes or a shape; [k] widens it. *)
Definition case (k : R) (m : option method) (foc : option Z) (mos : option R) (sh : option shape) : tas :=
  mkTas m None (fun i => nth i [-2; 40 * k; 40; 80] 0) (fun i => nth i [-2; 120; 120 * k; 180] 0) (case_x k 1) (case_x 1 (-1))
    (Some 1) (Some 2) None (2072 / 1000 * 9) (Some [1000; 200; 120; 50]) foc
    (Some (mkW (Some (5 * k)) (Some 12))) (Some (mkW (Some 5) (Some 12))) (Some (mkW (Some 3) None)) (-1) mos (Some 20) None
    (match sh with None => Some (2 * k) | Some _ => None end) (Some 2) (Some 3) sh.
Definition case_shape : shape := S2 (diag [1; 2; 3]).
Lemma case_usable k m foc mos sh n : 1 <= k -> match sh with None => True | Some s => s = case_shape end -> usable (case k m foc mos sh) n.
Proof.
  intros K H. assert (X : forall d, (d = 1 \/ d = -1) -> crystal_ok (case_x k d) /\ crystal_ok (case_x 1 d)) by (intros d D; unfold crystal_ok; simpl; repeat split; auto; lra).
  unfold usable. simpl. split; [intros i L; do 4 (destruct i as [|i]; [cbn [nth]; split; lra|]); lia|]. split; [apply X; auto|]. split; [apply X; auto|]. split; [lra|]. split; [lra|]. split; [lra|]. split; [auto|].
  split; [|split; [|lra]].
  - unfold sample_ok. simpl. destruct sh as [s|]; [subst s; simpl; apply posdef_diag_l; auto; repeat constructor; lra|lra].
  - intros _. split; [lia|]. repeat constructor; lra.
Qed.
Lemma case_kf k m foc mos sh w : kfin (case k m foc mos sh) w = 3.
Proof.
  unfold kfin, energies. simpl. destruct (Rlt_dec 0 (-1)); [lra|]. simpl. unfold CONVERT2. replace (2072 / 1000 * 9 / (2072 / 1000)) with (3 * 3) by field. apply sqrt_square. lra.
Qed.
Lemma case_ki k m foc mos sh w x : 0 <= x -> w = 2072 / 1000 * (x * x - 9) -> kin (case k m foc mos sh) w = x.
Proof.
  intros X ->. unfold kin, energies. simpl. destruct (Rlt_dec 0 (-1)); [lra|]. simpl. unfold CONVERT2. replace ((2072 / 1000 * 9 + 2072 / 1000 * (x * x - 9)) / (2072 / 1000)) with (x * x) by field. now apply sqrt_square.
Qed.
Lemma case_reach k m foc mos sh x q : 1 < x -> Rabs (x - 3) < q < x + 3 -> reachable (case k m foc mos sh) (q, 2072 / 1000 * (x * x - 9)).
Proof.
  intros X H. unfold reachable. rewrite (case_ki k m foc mos sh _ x) by (auto; lra). rewrite case_kf. unfold energies. simpl. destruct (Rlt_dec 0 (-1)); [lra|]. simpl. split; [nra|]. split; [lra|]. split; [lra|]. split; [lra|]. auto.
Qed.
(** One elastic point and one with an energy transfer. *)
Definition case_points : list (R * R) := [(3, 2072 / 1000 * (3 * 3 - 9)); (5, 2072 / 1000 * (4 * 4 - 9))].
Lemma case_points_ok k m foc mos sh : Forall (reachable (case k m foc mos sh)) case_points.
Proof. repeat apply Forall_cons; auto; apply case_reach; try lra; rewrite Rabs_pos_eq by lra; lra. Qed.
Lemma case_wider k m foc mos : 1 <= k -> wider (case 1 m foc mos None) (case k m foc mos None).
Proof.
  intros K. assert (G : forall a, 0 < a -> grow a a /\ grow (a * 1) (a * k)) by (intros a A; split; left; nra).
  constructor; simpl; auto.
  - intros i L. do 4 (destruct i as [|i]; [cbn [nth]; try (left; lra); right; lra|]). lia.
  - intros i L. do 4 (destruct i as [|i]; [cbn [nth]; try (left; lra); right; lra|]). lia.
  - constructor; simpl; auto; try (left; lra).
  - constructor; simpl; auto; left; lra.
  - split; left; lra.
  - split; [left; lra|auto].
  - destruct mos; [split; [apply Rle_refl|apply Rle_refl]|auto].
  - left; lra.
  - left; lra.
  - left; lra.
Qed.

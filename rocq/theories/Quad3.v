(** Three-fold integrals of a bounded continuous function times a Gaussian: midpoint rule in sampling angles, and the iterated integral over the line
    (the four-fold ones are in Quad.v). *)
From Coquelicot Require Import Coquelicot.
From Coq Require Import Reals List Lia Lra.
From Verif Require Import ConvModel Quad.
Import ListNotations.
Local Open Scope R_scope.

Definition near3 (f : R -> R -> R -> R) (x y z : R) : Prop := forall e, 0 < e -> exists d, 0 < d /\ forall x' y' z',
  Rabs (x' - x) < d -> Rabs (y' - y) < d -> Rabs (z' - z) < d -> Rabs (f x' y' z' - f x y z) <= e.

Section Box3.
  Variables a b : R.
  Hypothesis L : a < b.
  Notation mid := (mid a b).

  Lemma conv3 f : uc3 f -> forall e, 0 < e -> exists N, forall n m, (N < n)%nat -> (N < m)%nat ->
    Rabs (mid n (fun x => mid n (fun y => mid m (fun z => f x y z))) - RInt (fun x => RInt (fun y => RInt (fun z => f x y z) a b) a b) a b) <= e.
  Proof.
    intros U e Pe. set (c := b - a). assert (Pc : 0 < c) by (unfold c; lra).
    set (e0 := e / 3 / (c * c * c)). assert (P0 : 0 < e0). { unfold e0. apply Rdiv_lt_0_compat; [lra|]. repeat apply Rmult_lt_0_compat; auto. }
    destruct (U e0 P0) as [d [Pd D]]. destruct (h_small a b d Pd) as [N HN]. exists N. intros n m Ln Lm.
    assert (U2 := uc3_int a b L _ U). assert (U1 := uc2_int a b L _ U2).
    assert (Pn : (0 < n)%nat) by lia. assert (Pm : (0 < m)%nat) by lia.
    assert (S2 : forall x y, Rabs (mid m (f x y) - RInt (f x y) a b) <= c * e0).
    { intros. apply (mid_err a b L m _ d); auto. apply uc2_1, uc3_2; exact U. intros; apply D; auto using R00. }
    assert (S3 : forall x, Rabs (mid n (fun y => RInt (f x y) a b) - RInt (fun y => RInt (f x y) a b) a b) <= c * (c * e0)).
    { intros. apply (mid_err a b L n _ d); auto. apply (uc2_1 (fun x y => RInt (f x y) a b)). exact U2.
      intros. apply RI_near; [lra| | |]; try (apply uc2_1, uc3_2; exact U). intros; apply D; auto using R00. }
    assert (S4 : Rabs (mid n (fun x => RInt (fun y => RInt (f x y) a b) a b) - RInt (fun x => RInt (fun y => RInt (f x y) a b) a b) a b) <= c * (c * (c * e0))).
    { apply (mid_err a b L n _ d); auto.
      intros. apply RI_near; [lra| | |]; try (apply (uc2_1 (fun x y => RInt (f x y) a b)); exact U2).
      intros. apply RI_near; [lra| | |]; try (apply uc2_1, uc3_2; exact U). intros; apply D; auto using R00. }
    set (I3 := RInt (fun x => RInt (fun y => RInt (fun z => f x y z) a b) a b) a b).
    set (A0 := mid n (fun x => mid n (fun y => mid m (fun z => f x y z)))).
    set (A1 := mid n (fun x => mid n (fun y => RInt (f x y) a b))).
    set (A2 := mid n (fun x => RInt (fun y => RInt (f x y) a b) a b)).
    assert (B1 : Rabs (A0 - A1) <= c * (c * (c * e0))).
    { apply mid_near; [exact L|exact Pn|]. intros x. apply mid_near; [exact L|exact Pn|]. intros y. apply S2. }
    assert (B2 : Rabs (A1 - A2) <= c * (c * (c * e0))).
    { apply mid_near; [exact L|exact Pn|]. intros x. apply S3. }
    assert (B3 : Rabs (A2 - I3) <= c * (c * (c * e0))) by exact S4.
    replace (A0 - I3) with ((A0 - A1) + (A1 - A2) + (A2 - I3)) by ring.
    assert (Ec : c * (c * (c * e0)) = e / 3) by (unfold e0; field; lra). rewrite Ec in *.
    eapply Rle_trans; [apply Rabs_triang|]. assert (T2 := Rabs_triang (A0 - A1) (A1 - A2)). lra.
  Qed.
End Box3.

Definition ang3 (G : R -> R -> R -> R) (x y z : R) : R := G (tan x) (tan y) (tan z) * (wt x * wt y * wt z).
Lemma wt_0 : wt 0 = 1.
Proof. unfold wt. assert (P := PI_RGT_0). destruct Rlt_dec as [_|N]; [|exfalso; apply N; rewrite Rabs_R0; lra]. rewrite tan_0. replace (- / 2 * 0 ^ 2) with 0 by ring. rewrite exp_0. ring. Qed.
Lemma ang3_uc G B : (forall x y z, near3 G x y z) -> (forall x y z, Rabs (G x y z) <= B) -> uc3 (ang3 G).
Proof.
  intros Gc Gb. assert (U := ang_uc (fun x y z _ => G x y z) B).
  assert (N : forall x y z w, near4 (fun x y z _ => G x y z) x y z w). { intros x y z w e Pe. destruct (Gc x y z e Pe) as [d [Pd D]]. exists d. split; auto. }
  specialize (U N ltac:(intros; apply Gb)). intros e Pe. destruct (U e Pe) as [d [Pd D]]. exists d. split; auto. intros x y z x' y' z' A1 A2 A3.
  specialize (D x y z 0 x' y' z' 0 A1 A2 A3 (R00 0 d Pd)). unfold ang in D. rewrite wt_0 in D. unfold ang3.
  replace (G (tan x) (tan y) (tan z) * (wt x * wt y * wt z)) with (G (tan x) (tan y) (tan z) * (wt x * wt y * wt z * 1)) by ring.
  replace (G (tan x') (tan y') (tan z') * (wt x' * wt y' * wt z')) with (G (tan x') (tan y') (tan z') * (wt x' * wt y' * wt z' * 1)) by ring. exact D.
Qed.

(** ** The three-fold integral in triangular coordinates *)
Section Iterated3.
  Variables (G : R -> R -> R -> R) (B : R).
  Hypothesis Gc : forall x y z, near3 G x y z.
  Hypothesis Gb : forall x y z, Rabs (G x y z) <= B.
  Variables (k1 k2 k3 : R) (c2 : R -> R).
  Hypothesis (P1 : 0 < k1) (P2 : 0 < k2) (P3 : 0 < k3).
  Let E (t : R) : R := exp (- / 2 * t ^ 2).
  Let A3 := ang3 G.
  Let A2 x y := RInt (A3 x y) (- (PI / 2)) (PI / 2).
  Let A1 x := RInt (A2 x) (- (PI / 2)) (PI / 2).
  Let t1 d1 := d1 / k1.
  Let t2 d1 d2 := (d2 - c2 (t1 d1)) / k2.

  Lemma iterated3 : exists I1 I2,
    (forall d1 d2, line (fun d3 => G (t1 d1) (t2 d1 d2) (d3 / k3) * exp (- / 2 * (t1 d1 ^ 2 + t2 d1 d2 ^ 2 + (d3 / k3) ^ 2))) (I1 d1 d2)) /\
    (forall d1, line (I1 d1) (I2 d1)) /\
    line I2 (RInt A1 (- (PI / 2)) (PI / 2) * (k1 * k2 * k3)).
  Proof.
    assert (U3 : uc3 A3) by (apply (ang3_uc G B); auto).
    assert (U2 : uc2 A2) by (apply uc3_int; [apply box|exact U3]). assert (U1 : uc1 A1) by (apply uc2_int; [apply box|exact U2]).
    exists (fun d1 d2 => A2 (atan (t1 d1)) (atan (t2 d1 d2)) * (k3 / ((1 + t1 d1 ^ 2) * (1 + t2 d1 d2 ^ 2)))),
      (fun d1 => A1 (atan (t1 d1)) * (k2 * k3 / (1 + t1 d1 ^ 2))).
    repeat split.
    - intros d1 d2. set (k := k3 / _). assert (Ua : uc1 (A3 (atan (t1 d1)) (atan (t2 d1 d2)))) by (apply uc2_1, uc3_2; exact U3).
      unfold A2. rewrite <- RInt_k by exact Ua.
      apply (over_line _ (fun u => A3 (atan (t1 d1)) (atan (t2 d1 d2)) u * k) 0 k3); [exact P3|intros; apply cont_scal; exact Ua|].
      intros u L. unfold A3, ang3. rewrite !wt_atan, !tan_atan, (wt_in u L). replace ((0 + k3 * tan u) / k3) with (tan u) by (field; lra).
      rewrite !Rmult_plus_distr_l, !exp_plus. fold (E (t1 d1)) (E (t2 d1 d2)) (E (tan u)). unfold k.
      assert (S1 := s_pos (t1 d1)). assert (S2 := s_pos (t2 d1 d2)). set (a1 := t1 d1) in *. set (a2 := t2 d1 d2) in *. clearbody a1 a2. field. repeat split; lra.
    - intros d1. set (k := k2 * k3 / _). assert (Ua : uc1 (A2 (atan (t1 d1)))) by (apply uc2_1; exact U2).
      unfold A1. rewrite <- RInt_k by exact Ua.
      apply (over_line _ (fun u => A2 (atan (t1 d1)) u * k) (c2 (t1 d1)) k2); [exact P2|intros; apply cont_scal; exact Ua|].
      intros u L. unfold t2. replace ((c2 (t1 d1) + k2 * tan u - c2 (t1 d1)) / k2) with (tan u) by (field; lra). apply Rabs_def2 in L. rewrite atan_tan by lra.
      unfold k. assert (S1 := s_pos (t1 d1)). assert (S3 := s_pos (tan u)). set (a1 := t1 d1) in *. set (a3 := tan u) in *. clearbody a1 a3. field. repeat split; lra.
    - set (k := k1 * k2 * k3). rewrite <- RInt_k by exact U1.
      apply (over_line _ (fun u => A1 u * k) 0 k1); [exact P1|intros; apply cont_scal; exact U1|].
      intros u L. unfold t1. replace ((0 + k1 * tan u) / k1) with (tan u) by (field; lra). apply Rabs_def2 in L. rewrite atan_tan by lra.
      unfold k. assert (S3 := s_pos (tan u)). set (a3 := tan u) in *. clearbody a3. field. lra.
  Qed.
End Iterated3.

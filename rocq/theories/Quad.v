(** Midpoint sums and improper integrals: the substitution t = tan phi in several dimensions. *)
From Coquelicot Require Import Coquelicot.
From Coq Require Import Reals List Lia Lra Classical_Prop.
From Verif Require Import ConvModel.
Import ListNotations.
Local Open Scope R_scope.

Lemma Rsum_app a b : Rsum (a ++ b) = Rsum a + Rsum b.
Proof. induction a as [|x a IH]; simpl; [ring|rewrite IH; ring]. Qed.
Lemma Rsum_scal {A} (f : A -> R) k l : Rsum (map (fun x => k * f x) l) = k * Rsum (map f l).
Proof. induction l as [|x l IH]; simpl; [ring|rewrite IH; ring]. Qed.
Lemma Rsum_plus {A} (f g : A -> R) l : Rsum (map (fun x => f x + g x) l) = Rsum (map f l) + Rsum (map g l).
Proof. induction l as [|x l IH]; simpl; [ring|rewrite IH; ring]. Qed.
Lemma Rsum_ext {A} (f g : A -> R) l : (forall x, In x l -> f x = g x) -> Rsum (map f l) = Rsum (map g l).
Proof. intros E. f_equal. apply map_ext_in. exact E. Qed.
Lemma Rsum_swap {A B} (f : A -> B -> R) l m :
  Rsum (map (fun x => Rsum (map (f x) m)) l) = Rsum (map (fun y => Rsum (map (fun x => f x y) l)) m).
Proof.
  induction l as [|x l IH]; simpl.
  - induction m as [|y m IH]; simpl; [reflexivity|rewrite <- IH; ring].
  - rewrite IH. rewrite <- Rsum_plus. reflexivity.
Qed.
Lemma Rsum_abs {A} (f : A -> R) k l : (forall x, In x l -> Rabs (f x) <= k) -> Rabs (Rsum (map f l)) <= INR (length l) * k.
Proof.
  induction l as [|x l IH]; intros B.
  - simpl. rewrite Rabs_R0. lra.
  - simpl map. simpl length. rewrite S_INR. simpl Rsum. eapply Rle_trans; [apply Rabs_triang|].
    assert (Rabs (f x) <= k) by (apply B; left; reflexivity). assert (Rabs (Rsum (map f l)) <= INR (length l) * k) by (apply IH; intros; apply B; right; auto). lra.
Qed.

Lemma unbounded x : exists n, x < INR n.
Proof.
  destruct (Rle_dec x 0) as [L|L]; [exists 1%nat; simpl; lra|]. destruct (nfloor_ex x) as [n [_ H]]; [lra|]. exists (S n). rewrite S_INR. exact H.
Qed.

(** ** Uniform continuity *)
Definition uc1 (f : R -> R) : Prop := forall e, 0 < e -> exists d, 0 < d /\ forall x x', Rabs (x - x') < d -> Rabs (f x - f x') <= e.
Definition uc2 (f : R -> R -> R) : Prop := forall e, 0 < e -> exists d, 0 < d /\ forall x y x' y', Rabs (x - x') < d -> Rabs (y - y') < d -> Rabs (f x y - f x' y') <= e.
Definition uc3 (f : R -> R -> R -> R) : Prop := forall e, 0 < e -> exists d, 0 < d /\ forall x y z x' y' z', Rabs (x - x') < d -> Rabs (y - y') < d -> Rabs (z - z') < d -> Rabs (f x y z - f x' y' z') <= e.
Definition uc4 (f : R -> R -> R -> R -> R) : Prop := forall e, 0 < e -> exists d, 0 < d /\ forall x y z w x' y' z' w',
  Rabs (x - x') < d -> Rabs (y - y') < d -> Rabs (z - z') < d -> Rabs (w - w') < d -> Rabs (f x y z w - f x' y' z' w') <= e.

Lemma R00 x d : 0 < d -> Rabs (x - x) < d.
Proof. intros. rewrite Rminus_diag_eq, Rabs_R0; auto. Qed.
Lemma uc1_cont f x : uc1 f -> continuous f x.
Proof.
  intros U. apply filterlim_locally. intros e. destruct (U (e / 2)) as [d [Pd D]]. { destruct e; simpl; lra. }
  exists (mkposreal d Pd). intros y B. unfold ball in *. simpl in *. unfold AbsRing_ball, abs, minus, plus, opp in *. simpl in *.
  eapply Rle_lt_trans; [apply (D y x B)|]. destruct e; simpl; lra.
Qed.
Lemma uc1_ex f a b : uc1 f -> ex_RInt f a b.
Proof. intros U. apply (@ex_RInt_continuous R_CompleteNormedModule). intros. apply uc1_cont. exact U. Qed.
Lemma uc2_1 f x : uc2 f -> uc1 (f x).
Proof. intros U e P. destruct (U e P) as [d [Pd D]]. exists d. split; auto. intros. apply D; auto using R00. Qed.
Lemma uc3_2 f x : uc3 f -> uc2 (f x).
Proof. intros U e P. destruct (U e P) as [d [Pd D]]. exists d. split; auto. intros. apply D; auto using R00. Qed.
Lemma uc4_3 f x : uc4 f -> uc3 (f x).
Proof. intros U e P. destruct (U e P) as [d [Pd D]]. exists d. split; auto. intros. apply D; auto using R00. Qed.

Lemma RI_near f g a b e : a <= b -> uc1 f -> uc1 g -> (forall x, Rabs (f x - g x) <= e) -> Rabs (RInt f a b - RInt g a b) <= (b - a) * e.
Proof.
  intros L F G N. replace (RInt f a b - RInt g a b) with (RInt (fun x => f x - g x) a b).
  - apply abs_RInt_le_const; auto. apply (@ex_RInt_minus R_NormedModule); apply uc1_ex; auto.
  - apply (@RInt_minus R_CompleteNormedModule); apply uc1_ex; auto.
Qed.

Section Box.
  Variables a b : R.
  Hypothesis L : a < b.

  Lemma small_e e : 0 < e -> 0 < e / (b - a).
  Proof. intros. apply Rdiv_lt_0_compat; lra. Qed.
  Lemma uc4_int f : uc4 f -> uc3 (fun x y z => RInt (f x y z) a b).
  Proof.
    intros U e P. destruct (U (e / (b - a)) (small_e e P)) as [d [Pd D]]. exists d. split; auto. intros.
    replace e with ((b - a) * (e / (b - a))) by (field; lra). apply RI_near; [lra| | |].
    - apply uc2_1, uc3_2, uc4_3. exact U.
    - apply uc2_1, uc3_2, uc4_3. exact U.
    - intros. apply D; auto using R00.
  Qed.
  Lemma uc3_int f : uc3 f -> uc2 (fun x y => RInt (f x y) a b).
  Proof.
    intros U e P. destruct (U (e / (b - a)) (small_e e P)) as [d [Pd D]]. exists d. split; auto. intros.
    replace e with ((b - a) * (e / (b - a))) by (field; lra). apply RI_near; [lra| | |].
    - apply uc2_1, uc3_2. exact U.
    - apply uc2_1, uc3_2. exact U.
    - intros. apply D; auto using R00.
  Qed.
  Lemma uc2_int f : uc2 f -> uc1 (fun x => RInt (f x) a b).
  Proof.
    intros U e P. destruct (U (e / (b - a)) (small_e e P)) as [d [Pd D]]. exists d. split; auto. intros.
    replace e with ((b - a) * (e / (b - a))) by (field; lra). apply RI_near; [lra| | |].
    - apply uc2_1. exact U.
    - apply uc2_1. exact U.
    - intros. apply D; auto using R00.
  Qed.

  (** The midpoint rule with [n] intervals. *)
  Definition h (n : nat) : R := (b - a) / INR n.
  Definition mids (n : nat) : list R := map (fun k => a + h n / 2 + INR k * h n) (seq 0 n).
  Definition mid (n : nat) (f : R -> R) : R := h n * Rsum (map f (mids n)).

  Lemma h_pos n : (0 < n)%nat -> 0 < h n.
  Proof. intros. apply Rdiv_lt_0_compat; [lra|apply lt_0_INR; lia]. Qed.
  Lemma mid_near n f g e : (0 < n)%nat -> (forall x, Rabs (f x - g x) <= e) -> Rabs (mid n f - mid n g) <= (b - a) * e.
  Proof.
    intros Pn N. unfold mid. replace (h n * Rsum (map f (mids n)) - h n * Rsum (map g (mids n))) with (h n * Rsum (map (fun x => f x - g x) (mids n))).
    - rewrite Rabs_mult, (Rabs_right (h n)) by (apply Rle_ge, Rlt_le, h_pos; auto).
      assert (B := Rsum_abs (fun x => f x - g x) e (mids n) (fun x _ => N x)). unfold mids at 2 in B. rewrite map_length, seq_length in B.
      apply (Rmult_le_compat_l (h n)) in B; [|apply Rlt_le, h_pos; auto]. eapply Rle_trans; [exact B|]. right. unfold h. field. apply not_0_INR. lia.
    - unfold Rminus. rewrite Rsum_plus. rewrite (Rsum_ext (fun x => - g x) (fun x => -1 * g x)) by (intros; ring). rewrite Rsum_scal. ring.
  Qed.
  Lemma cell f x k e : 0 < k -> uc1 f -> (forall y, x <= y <= x + k -> Rabs (f y - f (x + k / 2)) <= e) -> Rabs (k * f (x + k / 2) - RInt f x (x + k)) <= k * e.
  Proof.
    intros Pk U N. replace (k * f (x + k / 2) - RInt f x (x + k)) with (- RInt (fun y => f y - f (x + k / 2)) x (x + k)).
    - rewrite Rabs_Ropp. replace (k * e) with ((x + k - x) * e) by ring. apply abs_RInt_le_const; [lra| |exact N].
      apply (@ex_RInt_minus R_NormedModule); [apply uc1_ex; auto|apply ex_RInt_const].
    - rewrite (@RInt_minus R_CompleteNormedModule) by (first [solve [apply uc1_ex; auto]|apply ex_RInt_const]). rewrite (@RInt_const R_CompleteNormedModule). unfold minus, plus, opp, scal. simpl. unfold mult. simpl. ring.
  Qed.
  Lemma mid_err n f d e : (0 < n)%nat -> uc1 f -> (forall x x', Rabs (x - x') < d -> Rabs (f x - f x') <= e) -> h n < d ->
    Rabs (mid n f - RInt f a b) <= (b - a) * e.
  Proof.
    intros Pn U D Hd. assert (Ph := h_pos n Pn).
    assert (K : forall k, (k <= n)%nat -> Rabs (h n * Rsum (map f (map (fun k => a + h n / 2 + INR k * h n) (seq 0 k))) - RInt f a (a + INR k * h n)) <= INR k * h n * e).
    { induction k as [|k IH]; intros Lk.
      - simpl. replace (a + 0 * h n) with a by ring. rewrite RInt_point. unfold zero. simpl. rewrite Rmult_0_r, Rminus_0_r, Rabs_R0. lra.
      - rewrite seq_S, !map_app, Rsum_app. change (Rsum (map f (map (fun k0 : nat => a + h n / 2 + INR k0 * h n) [(0 + k)%nat]))) with (f (a + h n / 2 + INR k * h n) + 0). rewrite S_INR. rewrite <- (RInt_Chasles f a (a + INR k * h n)) by (apply uc1_ex; auto).
        assert (C := cell f (a + INR k * h n) (h n) e Ph U). specialize (IH ltac:(lia)).
        replace (a + (INR k + 1) * h n) with (a + INR k * h n + h n) by ring. unfold plus. simpl.
        replace (a + h n / 2 + INR k * h n) with (a + INR k * h n + h n / 2) by ring. rewrite Rplus_0_r.
        assert (C' : Rabs (h n * f (a + INR k * h n + h n / 2) - RInt f (a + INR k * h n) (a + INR k * h n + h n)) <= h n * e).
        { apply C. intros y By. apply D. apply Rle_lt_trans with (h n); [apply Rabs_le; lra|exact Hd]. }
        set (s := Rsum _) in *. set (i1 := RInt f a _) in *. set (i2 := RInt f (a + INR k * h n) _) in *.
        replace (h n * (s + f (a + INR k * h n + h n / 2)) - (i1 + i2)) with ((h n * s - i1) + (h n * f (a + INR k * h n + h n / 2) - i2)) by ring.
        eapply Rle_trans; [apply Rabs_triang|]. lra. }
    specialize (K n (le_n n)). unfold mid, mids. replace (a + INR n * h n) with b in K by (unfold h; field; apply not_0_INR; lia).
    eapply Rle_trans; [exact K|]. right. unfold h. field. apply not_0_INR. lia.
  Qed.

  Lemma h_small d : 0 < d -> exists N, forall n, (N < n)%nat -> h n < d.
  Proof.
    intros Pd. destruct (unbounded ((b - a) / d)) as [N HN]. exists N. intros n Ln. unfold h.
    assert (INR N < INR n) by (apply lt_INR; auto). assert (P : 0 < INR n). { assert (0 <= INR N) by apply pos_INR. lra. }
    apply (Rmult_lt_reg_r (INR n)); auto. unfold Rdiv. rewrite Rmult_assoc, Rinv_l by lra. rewrite Rmult_1_r.
    apply (Rmult_lt_reg_r (/ d)); [apply Rinv_0_lt_compat; auto|]. replace (d * INR n * / d) with (INR n) by (field; lra). unfold Rdiv in HN. lra.
  Qed.

  (** The four-fold midpoint sum tends to the iterated integral. *)
  Lemma conv4 f : uc4 f -> forall e, 0 < e -> exists N, forall n m, (N < n)%nat -> (N < m)%nat ->
    Rabs (mid n (fun x => mid n (fun y => mid m (fun z => mid n (fun w => f x y z w)))) -
          RInt (fun x => RInt (fun y => RInt (fun z => RInt (fun w => f x y z w) a b) a b) a b) a b) <= e.
  Proof.
    intros U e Pe. set (c := b - a). assert (Pc : 0 < c) by (unfold c; lra).
    set (e0 := e / 4 / (c * c * c * c)). assert (P0 : 0 < e0). { unfold e0. apply Rdiv_lt_0_compat; [lra|]. repeat apply Rmult_lt_0_compat; auto. }
    destruct (U e0 P0) as [d [Pd D]]. destruct (h_small d Pd) as [N HN]. exists N. intros n m Ln Lm.
    assert (U3 := uc4_int f U). assert (U2 := uc3_int _ U3). assert (U1 := uc2_int _ U2).
    assert (Pn : (0 < n)%nat) by lia. assert (Pm : (0 < m)%nat) by lia.
    assert (S1 : forall x y z, Rabs (mid n (f x y z) - RInt (f x y z) a b) <= c * e0).
    { intros. apply (mid_err n (f x y z) d); auto. apply uc2_1, uc3_2, uc4_3. exact U. intros; apply D; auto using R00. }
    assert (S2 : forall x y, Rabs (mid m (fun z => RInt (f x y z) a b) - RInt (fun z => RInt (f x y z) a b) a b) <= c * (c * e0)).
    { intros. apply (mid_err m _ d); auto. apply (uc2_1 (fun y z => RInt (f x y z) a b)), (uc3_2 (fun x y z => RInt (f x y z) a b)). exact U3.
      intros. apply RI_near; [lra| | |]; try (apply uc2_1, uc3_2, uc4_3; exact U). intros; apply D; auto using R00. }
    assert (S3 : forall x, Rabs (mid n (fun y => RInt (fun z => RInt (f x y z) a b) a b) - RInt (fun y => RInt (fun z => RInt (f x y z) a b) a b) a b) <= c * (c * (c * e0))).
    { intros. apply (mid_err n _ d); auto. apply (uc2_1 (fun x y => RInt (fun z => RInt (f x y z) a b) a b)). exact U2.
      intros. apply RI_near; [lra| | |]; try (apply (uc2_1 (fun y z => RInt (f x y z) a b)), (uc3_2 (fun x y z => RInt (f x y z) a b)); exact U3).
      intros. apply RI_near; [lra| | |]; try (apply uc2_1, uc3_2, uc4_3; exact U). intros; apply D; auto using R00. }
    assert (S4 : Rabs (mid n (fun x => RInt (fun y => RInt (fun z => RInt (f x y z) a b) a b) a b) - RInt (fun x => RInt (fun y => RInt (fun z => RInt (f x y z) a b) a b) a b) a b) <= c * (c * (c * (c * e0)))).
    { apply (mid_err n _ d); auto. 
      intros. apply RI_near; [lra| | |]; try (apply (uc2_1 (fun x y => RInt (fun z => RInt (f x y z) a b) a b)); exact U2).
      intros. apply RI_near; [lra| | |]; try (apply (uc2_1 (fun y z => RInt (f _ y z) a b)), (uc3_2 (fun x y z => RInt (f x y z) a b)); exact U3).
      intros. apply RI_near; [lra| | |]; try (apply uc2_1, uc3_2, uc4_3; exact U). intros; apply D; auto using R00. }
    set (I4 := RInt (fun x => RInt (fun y => RInt (fun z => RInt (fun w => f x y z w) a b) a b) a b) a b).
    set (A0 := mid n (fun x => mid n (fun y => mid m (fun z => mid n (fun w => f x y z w))))).
    set (A1 := mid n (fun x => mid n (fun y => mid m (fun z => RInt (f x y z) a b)))).
    set (A2 := mid n (fun x => mid n (fun y => RInt (fun z => RInt (f x y z) a b) a b))).
    set (A3 := mid n (fun x => RInt (fun y => RInt (fun z => RInt (f x y z) a b) a b) a b)).
    assert (B1 : Rabs (A0 - A1) <= c * (c * (c * (c * e0)))).
    { apply mid_near; [exact Pn|]. intros x. apply mid_near; [exact Pn|]. intros y. apply mid_near; [exact Pm|]. intros z. apply S1. }
    assert (B2 : Rabs (A1 - A2) <= c * (c * (c * (c * e0)))).
    { apply mid_near; [exact Pn|]. intros x. apply mid_near; [exact Pn|]. intros y. apply S2. }
    assert (B3 : Rabs (A2 - A3) <= c * (c * (c * (c * e0)))).
    { apply mid_near; [exact Pn|]. intros x. apply S3. }
    assert (B4 : Rabs (A3 - I4) <= c * (c * (c * (c * e0)))) by exact S4.
    replace (A0 - I4) with ((A0 - A1) + (A1 - A2) + (A2 - A3) + (A3 - I4)) by ring.
    assert (Ec : c * (c * (c * (c * e0))) = e / 4) by (unfold e0; field; lra). rewrite Ec in *.
    eapply Rle_trans; [apply Rabs_triang|]. assert (T1 := Rabs_triang (A0 - A1 + (A1 - A2)) (A2 - A3)). assert (T2 := Rabs_triang (A0 - A1) (A1 - A2)). lra.
  Qed.
End Box.

(** ** Compactness: a function continuous everywhere and zero outside a box is uniformly continuous *)
Definition near4 (f : R -> R -> R -> R -> R) (x y z w : R) : Prop := forall e, 0 < e -> exists d, 0 < d /\ forall x' y' z' w',
  Rabs (x' - x) < d -> Rabs (y' - y) < d -> Rabs (z' - z) < d -> Rabs (w' - w) < d -> Rabs (f x' y' z' w' - f x y z w) <= e.
Notation T4 := (Compactness.Tn 4 R).
Definition on4 (f : R -> R -> R -> R -> R) (t : T4) : R := let '(x, (y, (z, (w, _)))) := t in f x y z w.

Lemma radius f e : 0 < e -> (forall x y z w, near4 f x y z w) ->
  forall t : T4, { d : posreal | forall u, close_n 4 d u t -> Rabs (on4 f u - on4 f t) <= e }.
Proof.
  intros Pe N t. set (E := fun d => d <= 1 /\ forall u, close_n 4 d u t -> Rabs (on4 f u - on4 f t) <= e).
  assert (X : exists d, 0 < d /\ E d).
  { destruct t as [x [y [z [w []]]]]. destruct (N x y z w e Pe) as [d [Pd D]]. exists (Rmin d 1). split; [apply Rmin_pos; lra|]. split; [apply Rmin_r|].
    intros [x' [y' [z' [w' []]]]] [A [B [C [C' _]]]]. simpl. assert (Rmin d 1 <= d) by apply Rmin_l. apply D; lra. }
  destruct (completeness E) as [m Lm].
  - exists 1. intros d [A _]. exact A.
  - destruct X as [d [_ A]]. exists d. exact A.
  - assert (Pm : 0 < m). { destruct X as [d [A B]]. apply Rlt_le_trans with d; auto. apply (proj1 Lm). exact B. }
    assert (P2 : 0 < m / 2) by lra. exists (mkposreal (m / 2) P2). intros u C. simpl in C.
    assert (Y : exists d, E d /\ m / 2 < d).
    { apply NNPP. intros No. assert (m <= m / 2); [|lra]. apply (proj2 Lm). intros d Ed. apply Rnot_lt_le. intros L. apply No. exists d. auto. }
    destruct Y as [d [[_ Ed] Ld]]. apply Ed. destruct u as [x' [y' [z' [w' []]]]], t as [x [y [z [w []]]]]. simpl in *. intuition lra.
Qed.

Definition clamp (c x : R) : R := Rmax (- c) (Rmin c x).
Lemma clamp_near c x x' : Rabs (clamp c x - clamp c x') <= Rabs (x - x').
Proof. unfold clamp, Rmax, Rmin. repeat destruct Rle_dec; unfold Rabs; repeat destruct Rcase_abs; lra. Qed.
Lemma clamp_in c x : 0 <= c -> - c <= clamp c x <= c.
Proof. intros. unfold clamp, Rmax, Rmin. repeat destruct Rle_dec; lra. Qed.
Lemma clamp_id c x : Rabs x < c -> clamp c x = x.
Proof. intros L. apply Rabs_def2 in L. unfold clamp, Rmax, Rmin. repeat destruct Rle_dec; lra. Qed.
Lemma clamp_out c x : 0 <= c -> ~ Rabs x < c -> ~ Rabs (clamp c x) < c.
Proof. intros P No L. apply No. apply Rabs_def2 in L. apply Rabs_def1; revert L; unfold clamp, Rmax, Rmin; repeat destruct Rle_dec; lra. Qed.

Lemma uc_box f c : 0 < c -> (forall x y z w, near4 f x y z w) ->
  (forall x y z w, ~ (Rabs x < c /\ Rabs y < c /\ Rabs z < c /\ Rabs w < c) -> f x y z w = 0) -> uc4 f.
Proof.
  intros Pc N Z e Pe. assert (P2 : 0 < e / 2) by lra.
  destruct (compactness_value 4 (- c, (- c, (- c, (- c, tt)))) (c, (c, (c, (c, tt)))) (fun t => mkposreal _ (is_pos_div_2 (proj1_sig (radius f (e / 2) P2 N t))))) as [d D].
  exists d. split; [apply cond_pos|]. intros x y z w x' y' z' w' Lx Ly Lz Lw.
  assert (C : forall x y z w, f x y z w = f (clamp c x) (clamp c y) (clamp c z) (clamp c w)).
  { clear - Pc Z. intros. destruct (Rlt_dec (Rabs x) c) as [X|X]; [rewrite (clamp_id c x) by auto|rewrite !Z; [reflexivity| |intuition]; apply clamp_out in X; [tauto|lra]].
    destruct (Rlt_dec (Rabs y) c) as [Y|Y]; [rewrite (clamp_id c y) by auto|rewrite !Z; [reflexivity| |intuition]; apply clamp_out in Y; [tauto|lra]].
    destruct (Rlt_dec (Rabs z) c) as [Z'|Z']; [rewrite (clamp_id c z) by auto|rewrite !Z; [reflexivity| |intuition]; apply clamp_out in Z'; [tauto|lra]].
    destruct (Rlt_dec (Rabs w) c) as [W|W]; [rewrite (clamp_id c w) by auto; reflexivity|rewrite !Z; [reflexivity| |intuition]; apply clamp_out in W; [tauto|lra]]. }
  rewrite (C x), (C x'). clear C.
  assert (Cx := clamp_near c x x'). assert (Cy := clamp_near c y y'). assert (Cz := clamp_near c z z'). assert (Cw := clamp_near c w w').
  assert (Ix := clamp_in c x (Rlt_le _ _ Pc)). assert (Iy := clamp_in c y (Rlt_le _ _ Pc)). assert (Iz := clamp_in c z (Rlt_le _ _ Pc)). assert (Iw := clamp_in c w (Rlt_le _ _ Pc)).
  set (X := clamp c x) in *. set (Y := clamp c y) in *. set (Z' := clamp c z) in *. set (W := clamp c w) in *.
  set (X' := clamp c x') in *. set (Y' := clamp c y') in *. set (Z'' := clamp c z') in *. set (W' := clamp c w') in *.
  specialize (D (X, (Y, (Z', (W, tt))))). cbn [bounded_n] in D. specialize (D ltac:(auto 10)).
  apply NNPP in D. destruct D as [t [_ [Ct Lt]]]. cbn [pos] in Ct, Lt. destruct (radius f (e / 2) P2 N t) as [r Hr]. simpl proj1_sig in *.
  assert (A := Hr (X, (Y, (Z', (W, tt))))). assert (B := Hr (X', (Y', (Z'', (W', tt))))). destruct t as [t1 [t2 [t3 [t4 []]]]]. cbn [on4 close_n] in *.
  assert (Pr := cond_pos r). destruct Ct as [C1 [C2 [C3 [C4 _]]]].
  assert (Tri : forall p p' t, Rabs (p - p') < d -> Rabs (p - t) < r / 2 -> Rabs (p' - t) < r).
  { intros p p' t U1 U2. assert (Tr := Rabs_triang (p' - p) (p - t)). replace (p' - p + (p - t)) with (p' - t) in Tr by ring. rewrite (Rabs_minus_sym p' p) in Tr. lra. }
  specialize (A ltac:(repeat split; lra)).
  specialize (B ltac:(repeat split; first [apply (Tri X); lra|apply (Tri Y); lra|apply (Tri Z'); lra|apply (Tri W); lra])).
  set (f1 := f X Y Z' W) in *. set (f2 := f X' Y' Z'' W') in *. set (f0 := f t1 t2 t3 t4) in *.
  replace (f1 - f2) with ((f1 - f0) - (f2 - f0)) by ring. unfold Rminus at 1. eapply Rle_trans; [apply Rabs_triang|]. rewrite Rabs_Ropp. lra.
Qed.

(** ** The weight of a sampling angle *)
Definition wt (u : R) : R := if Rlt_dec (Rabs u) (PI / 2) then exp (- / 2 * tan u ^ 2) * (1 + tan u ^ 2) else 0.

Lemma cos_pos u : Rabs u < PI / 2 -> 0 < cos u.
Proof. intros L. apply Rabs_def2 in L. apply cos_gt_0; lra. Qed.
Lemma sec2 u : cos u <> 0 -> 1 + tan u ^ 2 = / cos u ^ 2.
Proof. intros N. unfold tan. assert (E := sin2_cos2 u). unfold Rsqr in E. field_simplify; [|auto|auto]. f_equal. lra. Qed.
Lemma exp_sq s : 0 <= s -> s ^ 2 / 4 <= exp s.
Proof.
  intros P. replace s with (s / 2 + s / 2) at 2 by field. rewrite exp_plus. assert (E := exp_ineq1_le (s / 2)). nra.
Qed.
Lemma wt_bounds u : 0 <= wt u <= 2.
Proof.
  unfold wt. destruct Rlt_dec as [L|L]; [|lra]. set (t := tan u). assert (P := exp_pos (- / 2 * t ^ 2)). split; [nra|].
  replace (- / 2 * t ^ 2) with (- (t ^ 2 / 2)) in * by field. rewrite exp_Ropp in *. assert (E := exp_ineq1_le (t ^ 2 / 2)). assert (Q := exp_pos (t ^ 2 / 2)).
  apply (Rmult_le_reg_l (exp (t ^ 2 / 2))); auto. rewrite <- Rmult_assoc, Rinv_r by lra. lra.
Qed.
Lemma wt_edge u : cos u ^ 2 <= / 2 -> wt u <= 64 * cos u ^ 2.
Proof.
  intros S. unfold wt. destruct Rlt_dec as [L|L]; [|nra]. assert (P := cos_pos u L). rewrite sec2 by lra.
  assert (Et : tan u ^ 2 = / cos u ^ 2 - 1) by (rewrite <- sec2 by lra; ring). rewrite Et. set (c := cos u) in *.
  set (s := (/ c ^ 2 - 1) / 2). replace (- / 2 * (/ c ^ 2 - 1)) with (- s) by (unfold s; field; lra). rewrite exp_Ropp.
  assert (Pc : 0 < c ^ 2) by nra. assert (I : 2 <= / c ^ 2). { apply (Rmult_le_reg_r (c ^ 2)); auto. rewrite Rinv_l by lra. lra. }
  assert (Ps : / c ^ 2 / 4 <= s) by (unfold s; lra). assert (Ex := exp_sq s ltac:(lra)). assert (Pe := exp_pos s).
  apply (Rmult_le_reg_l (exp s)); auto. rewrite <- Rmult_assoc, Rinv_r, Rmult_1_l by lra.
  apply Rle_trans with (s ^ 2 / 4 * (64 * c ^ 2)); [|apply Rmult_le_compat_r; lra].
  apply Rle_trans with ((/ c ^ 2 / 4) ^ 2 / 4 * (64 * c ^ 2)).
  - right. field. lra.
  - apply Rmult_le_compat_r; [lra|]. assert (0 < / c ^ 2) by (apply Rinv_0_lt_compat; auto). nra.
Qed.
Definition near1 (f : R -> R) (x : R) : Prop := forall e, 0 < e -> exists d, 0 < d /\ forall x', Rabs (x' - x) < d -> Rabs (f x' - f x) <= e.
Lemma cont_near1 f x : continuous f x -> near1 f x.
Proof.
  intros C e Pe. assert (K := proj1 (filterlim_locally f (f x)) C (mkposreal e Pe)). destruct K as [d D]. exists d. split; [apply cond_pos|]. intros x' L. apply Rlt_le. apply (D x'). exact L.
Qed.
Lemma near1_cont f x : near1 f x -> continuous f x.
Proof.
  intros N. apply filterlim_locally. intros e. destruct (N (e / 2)) as [d [Pd D]]. { destruct e; simpl; lra. }
  exists (mkposreal d Pd). intros y B. eapply Rle_lt_trans; [apply (D y B)|]. destruct e; simpl; lra.
Qed.
Lemma tri1 u y c : Rabs (y - u) < c - Rabs u -> Rabs y < c.
Proof. intros B. assert (T := Rabs_triang u (y - u)). replace (u + (y - u)) with y in T by ring. lra. Qed.
Lemma wt_near u : near1 wt u.
Proof.
  destruct (Rlt_dec (Rabs u) (PI / 2)) as [L|L].
  - apply cont_near1. assert (P := cos_pos u L). apply (continuous_ext_loc _ (fun u => exp (- / 2 * tan u ^ 2) * (1 + tan u ^ 2))).
    + assert (Pd : 0 < PI / 2 - Rabs u) by lra. exists (mkposreal _ Pd). intros y B. unfold wt. destruct Rlt_dec as [A|A]; [reflexivity|]. exfalso. apply A.
      assert (B' : Rabs (Rminus y u) < PI / 2 - Rabs u) by exact B. exact (tri1 u y (PI / 2) B').
    + apply (ex_derive_continuous (fun u => exp (- / 2 * tan u ^ 2) * (1 + tan u ^ 2))). unfold tan. auto_derive. lra.
  - intros e Pe. assert (W0 : wt u = 0) by (unfold wt; destruct Rlt_dec; [lra|reflexivity]). rewrite W0.
    destruct (Req_dec (Rabs u) (PI / 2)) as [Eu|Nu].
    + assert (C0 : cos u = 0). { destruct (Rcase_abs u) as [G|G]; [rewrite Rabs_left in Eu by auto; replace u with (- (PI / 2)) by lra; rewrite cos_neg|rewrite Rabs_right in Eu by auto; rewrite Eu]; apply cos_PI2. }
      assert (C : continuous (fun u => cos u ^ 2) u). { apply (ex_derive_continuous (fun u => cos u ^ 2)). auto_derive. auto. }
      destruct (cont_near1 _ _ C (Rmin (e / 64) (/ 2))) as [d [Pd D]]. { apply Rmin_pos; lra. }
      exists d. split; auto. intros x' Lx. specialize (D x' Lx). rewrite C0 in D. replace (cos x' ^ 2 - 0 ^ 2) with (cos x' ^ 2) in D by ring.
      assert (Pq : 0 <= cos x' ^ 2) by nra. rewrite Rabs_right in D by lra. assert (B := wt_bounds x'). rewrite Rminus_0_r, Rabs_right by lra.
      assert (M1 := Rmin_l (e / 64) (/ 2)). assert (M2 := Rmin_r (e / 64) (/ 2)). assert (W := wt_edge x' ltac:(lra)). lra.
    + assert (Pd : 0 < Rabs u - PI / 2) by lra. exists (Rabs u - PI / 2). split; auto. intros x' Lx.
      assert (T := Rabs_triang x' (u - x')). replace (x' + (u - x')) with u in T by ring. rewrite Rabs_minus_sym in Lx.
      unfold wt. destruct Rlt_dec as [A|A]; [lra|]. rewrite Rminus_0_r, Rabs_R0. lra.
Qed.

(** ** A cross section in sampling angles *)
Section Angles.
  Variables (G : R -> R -> R -> R -> R) (B : R).
  Hypothesis Gc : forall x y z w, near4 G x y z w.
  Hypothesis Gb : forall x y z w, Rabs (G x y z w) <= B.

  Definition ang (x y z w : R) : R := G (tan x) (tan y) (tan z) (tan w) * (wt x * wt y * wt z * wt w).

  Lemma near4_swap1 f x y z w : near4 (fun y x z w => f x y z w) y x z w -> near4 f x y z w.
  Proof. intros N e Pe. destruct (N e Pe) as [d [Pd D]]. exists d. split; auto. Qed.
  Lemma near4_swap2 f x y z w : near4 (fun z y x w => f x y z w) z y x w -> near4 f x y z w.
  Proof. intros N e Pe. destruct (N e Pe) as [d [Pd D]]. exists d. split; auto. Qed.
  Lemma near4_swap3 f x y z w : near4 (fun w y z x => f x y z w) w y z x -> near4 f x y z w.
  Proof. intros N e Pe. destruct (N e Pe) as [d [Pd D]]. exists d. split; auto. Qed.
  Lemma near4_ext f g x y z w : (forall x y z w, f x y z w = g x y z w) -> near4 f x y z w -> near4 g x y z w.
  Proof. intros E N e Pe. destruct (N e Pe) as [d [Pd D]]. exists d. split; auto. intros. rewrite <- !E. auto. Qed.
  Lemma near4_mult f g x y z w : near4 f x y z w -> near4 g x y z w -> near4 (fun x y z w => f x y z w * g x y z w) x y z w.
  Proof.
    intros N M e Pe. set (u := f x y z w). set (v := g x y z w). set (k := Rabs u + Rabs v + 1 + 1).
    assert (Pu := Rabs_pos u). assert (Pv := Rabs_pos v).
    set (e1 := Rmin 1 (e / k)). assert (Pk : 0 < k) by (unfold k; lra). assert (Pe1 : 0 < e1) by (apply Rmin_pos; [lra|apply Rdiv_lt_0_compat; lra]).
    destruct (N e1 Pe1) as [d [Pd D]]. destruct (M e1 Pe1) as [d' [Pd' D']]. exists (Rmin d d'). split; [apply Rmin_pos; auto|].
    intros x' y' z' w' A1 A2 A3 A4. assert (M1 := Rmin_l d d'). assert (M2 := Rmin_r d d').
    specialize (D x' y' z' w' ltac:(lra) ltac:(lra) ltac:(lra) ltac:(lra)). specialize (D' x' y' z' w' ltac:(lra) ltac:(lra) ltac:(lra) ltac:(lra)).
    fold u in D |- *. fold v in D' |- *. set (u' := f x' y' z' w') in *. set (v' := g x' y' z' w') in *.
    replace (u' * v' - u * v) with ((u' - u) * (v' - v) + ((u' - u) * v + u * (v' - v))) by ring.
    eapply Rle_trans; [apply Rabs_triang|]. rewrite Rabs_mult. eapply Rle_trans; [apply Rplus_le_compat_l, Rabs_triang|]. rewrite !Rabs_mult.
    assert (L1 : e1 <= 1) by apply Rmin_l. assert (L2 : e1 <= e / k) by apply Rmin_r. assert (P1 := Rabs_pos (u' - u)). assert (P2 := Rabs_pos (v' - v)).
    apply Rle_trans with (e1 * k).
    - unfold k. nra.
    - apply (Rmult_le_compat_r k) in L2; [|lra]. replace (e / k * k) with e in L2 by (field; lra). exact L2.
  Qed.
  Lemma near4_1 f x y z w : near1 f x -> near4 (fun x y z w => f x) x y z w.
  Proof. intros N e Pe. destruct (N e Pe) as [d [Pd D]]. exists d. split; auto. Qed.
  Lemma tan_near u : Rabs u < PI / 2 -> near1 tan u.
  Proof. intros L. apply cont_near1. apply (ex_derive_continuous tan). unfold tan. assert (P := cos_pos u L). auto_derive. lra. Qed.

  Lemma edge f K x y z w : 0 <= K -> ~ Rabs x < PI / 2 -> (forall x y z w, Rabs (f x y z w) <= K * wt x) -> near4 f x y z w.
  Proof.
    intros B0 No Bd e Pe. assert (W0 : wt x = 0) by (unfold wt; destruct Rlt_dec; [contradiction|reflexivity]).
    destruct (wt_near x (e / (K + 1))) as [d [Pd D]]. { apply Rdiv_lt_0_compat; lra. }
    exists d. split; auto. intros x' y' z' w' Lx _ _ _. specialize (D x' Lx). rewrite W0, Rminus_0_r in D.
    assert (A0 : f x y z w = 0). { specialize (Bd x y z w). rewrite W0, Rmult_0_r in Bd. destruct (Req_dec (f x y z w) 0) as [E|E]; auto. apply Rabs_pos_lt in E. lra. }
    rewrite A0, Rminus_0_r. eapply Rle_trans; [apply Bd|].
    assert (Wb := wt_bounds x'). rewrite Rabs_right in D by lra. apply (Rmult_le_compat_l (K + 1)) in D; [|lra].
    replace ((K + 1) * (e / (K + 1))) with e in D by (field; lra). lra.
  Qed.
  Lemma ang_bound x y z w : Rabs (ang x y z w) <= B * 8 * wt x /\ Rabs (ang x y z w) <= B * 8 * wt y /\ Rabs (ang x y z w) <= B * 8 * wt z /\ Rabs (ang x y z w) <= B * 8 * wt w.
  Proof.
    assert (Bx := wt_bounds x). assert (By := wt_bounds y). assert (Bz := wt_bounds z). assert (Bw := wt_bounds w).
    assert (Bg := Gb (tan x) (tan y) (tan z) (tan w)). unfold ang. rewrite Rabs_mult. set (g := Rabs _) in *. assert (Pg : 0 <= g) by apply Rabs_pos.
    assert (P3 : forall p q r, 0 <= p <= 2 -> 0 <= q <= 2 -> 0 <= r <= 2 -> 0 <= p * q * r <= 8). { intros. split; [repeat apply Rmult_le_pos; lra|]. replace 8 with (2 * 2 * 2) by ring. apply Rmult_le_compat; try lra; [apply Rmult_le_pos; lra|apply Rmult_le_compat; lra]. }
    assert (Pw : 0 <= wt x * wt y * wt z * wt w) by (repeat apply Rmult_le_pos; lra). rewrite (Rabs_right (_ * _)) by lra.
    assert (K : forall p q, 0 <= p -> 0 <= q <= 8 -> g * (q * p) <= B * 8 * p).
    { intros p q Pp Pq. rewrite <- Rmult_assoc. apply Rmult_le_compat_r; auto. apply Rmult_le_compat; lra. }
    repeat split.
    - replace (wt x * wt y * wt z * wt w) with (wt y * wt z * wt w * wt x) by ring. apply K; auto; lra.
    - replace (wt x * wt y * wt z * wt w) with (wt x * wt z * wt w * wt y) by ring. apply K; auto; lra.
    - replace (wt x * wt y * wt z * wt w) with (wt x * wt y * wt w * wt z) by ring. apply K; auto; lra.
    - apply K; auto; lra.
  Qed.
  Lemma ang_near x y z w : near4 ang x y z w.
  Proof.
    assert (B0 : 0 <= B * 8). { assert (0 <= B); [|lra]. eapply Rle_trans; [apply Rabs_pos|apply (Gb 0 0 0 0)]. }
    destruct (Rlt_dec (Rabs x) (PI / 2)) as [Lx|Nx]. 2:{ apply (edge ang (B * 8)); auto. intros; apply ang_bound. }
    destruct (Rlt_dec (Rabs y) (PI / 2)) as [Ly|Ny]. 2:{ apply near4_swap1. apply (edge _ (B * 8)); auto. intros; apply ang_bound. }
    destruct (Rlt_dec (Rabs z) (PI / 2)) as [Lz|Nz]. 2:{ apply near4_swap2. apply (edge _ (B * 8)); auto. intros; apply ang_bound. }
    destruct (Rlt_dec (Rabs w) (PI / 2)) as [Lw|Nw]. 2:{ apply near4_swap3. apply (edge _ (B * 8)); auto. intros; apply ang_bound. }
    unfold ang. apply (near4_mult (fun x y z w => G (tan x) (tan y) (tan z) (tan w)) (fun x y z w => wt x * wt y * wt z * wt w)).
    - intros e Pe. destruct (Gc (tan x) (tan y) (tan z) (tan w) e Pe) as [d [Pd D]].
      destruct (tan_near x Lx (d / 2)) as [d1 [P1 D1]]; [lra|]. destruct (tan_near y Ly (d / 2)) as [d2 [P2 D2]]; [lra|].
      destruct (tan_near z Lz (d / 2)) as [d3 [P3 D3]]; [lra|]. destruct (tan_near w Lw (d / 2)) as [d4 [P4 D4]]; [lra|].
      exists (Rmin (Rmin d1 d2) (Rmin d3 d4)). split; [repeat apply Rmin_pos; auto|]. intros x' y' z' w' A1 A2 A3 A4.
      assert (M1 := Rmin_l (Rmin d1 d2) (Rmin d3 d4)). assert (M2 := Rmin_r (Rmin d1 d2) (Rmin d3 d4)).
      assert (M3 := Rmin_l d1 d2). assert (M4 := Rmin_r d1 d2). assert (M5 := Rmin_l d3 d4). assert (M6 := Rmin_r d3 d4).
      specialize (D1 x' ltac:(lra)). specialize (D2 y' ltac:(lra)). specialize (D3 z' ltac:(lra)). specialize (D4 w' ltac:(lra)). apply D; lra.
    - apply (near4_mult (fun x y z w => wt x * wt y * wt z) (fun x y z w => wt w)).
      + apply (near4_mult (fun x y z w => wt x * wt y) (fun x y z w => wt z)).
        * apply (near4_mult (fun x y z w => wt x) (fun x y z w => wt y)); [apply near4_1, wt_near|apply near4_swap1, near4_1, wt_near].
        * apply near4_swap2, near4_1, wt_near.
      + apply near4_swap3, near4_1, wt_near.
  Qed.
  Lemma wt_out u : ~ Rabs u < PI / 2 -> wt u = 0.
  Proof. intros. unfold wt. destruct Rlt_dec; [contradiction|reflexivity]. Qed.
  Lemma ang_uc : uc4 ang.
  Proof.
    apply (uc_box ang (PI / 2)); [assert (P := PI_RGT_0); lra|apply ang_near|]. intros x y z w No. unfold ang.
    destruct (Rlt_dec (Rabs x) (PI / 2)); [|rewrite (wt_out x) by auto; ring]. destruct (Rlt_dec (Rabs y) (PI / 2)); [|rewrite (wt_out y) by auto; ring].
    destruct (Rlt_dec (Rabs z) (PI / 2)); [|rewrite (wt_out z) by auto; ring]. destruct (Rlt_dec (Rabs w) (PI / 2)); [tauto|rewrite (wt_out w) by auto; ring].
  Qed.
End Angles.

(** ** The substitution t = tan phi in an improper integral *)
Lemma over_line (f g : R -> R) (c k : R) : 0 < k -> (forall u, continuous g u) ->
  (forall u, Rabs u < PI / 2 -> g u = f (c + k * tan u) * (k * (1 + tan u ^ 2))) ->
  is_RInt_gen f (Rbar_locally m_infty) (Rbar_locally p_infty) (RInt g (- (PI / 2)) (PI / 2)).
Proof.
  intros Pk Cg E. set (al := fun x => atan ((x - c) / k)).
  assert (Ba : forall x, Rabs (al x) < PI / 2) by (intros x; assert (A := atan_bound ((x - c) / k)); apply Rabs_def1; unfold al; lra).
  assert (Ta : forall x, c + k * tan (al x) = x) by (intros; unfold al; rewrite tan_atan; field; lra).
  assert (Fe : forall y : R, g (al y) / (k * (1 + ((y - c) / k) ^ 2)) = f y).
  { intros y. rewrite (E (al y)) by apply Ba. rewrite Ta. unfold al. rewrite tan_atan. field. assert (0 <= (y - c) ^ 2) by apply pow2_ge_0. assert (0 < k ^ 2) by (apply pow_lt; exact Pk). split; lra. }
  assert (Fc : forall x, continuous f x).
  { intros x. apply (continuous_ext (fun x => g (al x) / (k * (1 + ((x - c) / k) ^ 2)))).
    - intros y. apply Fe.
    - apply (@continuous_mult R_UniformSpace R_AbsRing).
      + apply (continuous_comp al g); [|apply Cg]. unfold al. apply (continuous_comp (fun x => (x - c) / k) atan).
        * apply (ex_derive_continuous (fun x => (x - c) / k)). auto_derive. auto.
        * apply (ex_derive_continuous atan). eexists. apply is_derive_atan.
      + apply (ex_derive_continuous (fun x => / (k * (1 + ((x - c) / k) ^ 2)))). auto_derive. assert (Sq := pow2_ge_0 ((x + - c) * / k)). simpl in Sq. apply Rgt_not_eq. apply Rmult_lt_0_compat; lra. }
  assert (I : forall x y, is_RInt f x y (RInt g (al x) (al y))).
  { intros x y. assert (C := @is_RInt_comp R_CompleteNormedModule f (fun u => c + k * tan u) (fun u => k * (1 + tan u ^ 2)) (al x) (al y)).
    cbv beta in C. rewrite !Ta in C. assert (In : forall u, Rmin (al x) (al y) <= u <= Rmax (al x) (al y) -> Rabs u < PI / 2).
    { intros u [U1 U2]. assert (A := Ba x). assert (A' := Ba y). apply Rabs_def2 in A. apply Rabs_def2 in A'. apply Rabs_def1; revert U1 U2; unfold Rmin, Rmax; repeat destruct Rle_dec; lra. }
    assert (C' : is_RInt (fun u => scal (k * (1 + tan u ^ 2)) (f (c + k * tan u))) (al x) (al y) (RInt f x y)).
    { apply C; [intros; apply Fc|]. intros u Hu. apply In in Hu. assert (P := cos_pos u Hu). split.
      - unfold tan. auto_derive; [lra|]. assert (S := sin2_cos2 u). unfold Rsqr in S. field. lra.
      - apply (ex_derive_continuous (fun u => k * (1 + tan u ^ 2))). unfold tan. auto_derive. lra. }
    apply (@is_RInt_unique R_CompleteNormedModule) in C'. rewrite (RInt_ext _ g) in C'.
    - rewrite C'. apply (@RInt_correct R_CompleteNormedModule). apply (@ex_RInt_continuous R_CompleteNormedModule). intros; apply Fc.
    - intros u Hu. rewrite E by (apply In; lra). unfold scal. simpl. unfold mult. simpl. ring. }
  assert (Cl : forall p, continuous (fun z => RInt g 0 z) p).
  { intros p. apply (ex_derive_continuous (fun z => RInt g 0 z)). exists (g p). apply (is_derive_RInt g _ 0); [|apply Cg].
    apply filter_forall. intros z. apply (@RInt_correct R_CompleteNormedModule). apply (@ex_RInt_continuous R_CompleteNormedModule). intros; apply Cg. }
  apply (filterlimi_locally (F := filter_prod (Rbar_locally m_infty) (Rbar_locally p_infty))). intros e.
  destruct (cont_near1 _ _ (Cl (- (PI / 2))) (e / 3)) as [d1 [P1 D1]]. { destruct e; simpl; lra. }
  destruct (cont_near1 _ _ (Cl (PI / 2)) (e / 3)) as [d2 [P2 D2]]. { destruct e; simpl; lra. }
  assert (PP := PI_RGT_0). set (r := Rmin (Rmin d1 d2) (PI / 4)). assert (Pr : 0 < r) by (repeat apply Rmin_pos; lra).
  assert (R1 : r <= d1) by (eapply Rle_trans; [apply Rmin_l|apply Rmin_l]). assert (R2 : r <= d2) by (eapply Rle_trans; [apply Rmin_l|apply Rmin_r]). assert (R3 : r <= PI / 4) by apply Rmin_r.
  apply (Filter_prod _ _ _ (fun x => x < c + k * tan (- (PI / 2) + r)) (fun y => c + k * tan (PI / 2 - r) < y)).
  - exists (c + k * tan (- (PI / 2) + r)). auto.
  - exists (c + k * tan (PI / 2 - r)). auto.
  - intros x y Lx Ly. exists (RInt g (al x) (al y)). split; [apply I|].
    assert (A1 : al x < - (PI / 2) + r). { unfold al. rewrite <- (atan_tan (- (PI / 2) + r)) by lra. apply atan_increasing. apply (Rmult_lt_reg_l k); auto. replace (k * ((x - c) / k)) with (x - c) by (field; lra). lra. }
    assert (A2 : PI / 2 - r < al y). { unfold al. rewrite <- (atan_tan (PI / 2 - r)) by lra. apply atan_increasing. apply (Rmult_lt_reg_l k); auto. replace (k * ((y - c) / k)) with (y - c) by (field; lra). lra. }
    assert (B1 := Ba x). assert (B2 := Ba y). apply Rabs_def2 in B1. apply Rabs_def2 in B2.
    specialize (D1 (al x) ltac:(apply Rabs_def1; lra)). specialize (D2 (al y) ltac:(apply Rabs_def1; lra)).
    assert (Ch : forall p q, RInt g p q = RInt g 0 q - RInt g 0 p).
    { intros p q. assert (X : forall p q, ex_RInt g p q) by (intros; apply (@ex_RInt_continuous R_CompleteNormedModule); intros; apply Cg).
      rewrite <- (RInt_Chasles g 0 p q) by apply X. unfold plus. simpl. change (@eq R (RInt g p q) (RInt g 0 p + RInt g p q - RInt g 0 p)). lra. }
    change (Rabs (RInt g (al x) (al y) - RInt g (- (PI / 2)) (PI / 2)) < e). rewrite (Ch (al x)), (Ch (- (PI / 2))).
    set (p1 := RInt g 0 (al x)) in *. set (p2 := RInt g 0 (al y)) in *. set (q1 := RInt g 0 (- (PI / 2))) in *. set (q2 := RInt g 0 (PI / 2)) in *.
    replace (p2 - p1 - (q2 - q1)) with ((p2 - q2) - (p1 - q1)) by ring. unfold Rminus at 1. eapply Rle_lt_trans; [apply Rabs_triang|]. rewrite Rabs_Ropp. destruct e; simpl in *; lra.
Qed.

(** ** The four-fold integral in triangular coordinates *)
Notation line f l := (is_RInt_gen f (Rbar_locally m_infty) (Rbar_locally p_infty) l).
Section Iterated.
  Variables (G : R -> R -> R -> R -> R) (B : R).
  Hypothesis Gc : forall x y z w, near4 G x y z w.
  Hypothesis Gb : forall x y z w, Rabs (G x y z w) <= B.
  Variables (k1 k2 k3 k4 : R) (c2 : R -> R) (c4 : R -> R -> R).
  Hypothesis (P1 : 0 < k1) (P2 : 0 < k2) (P3 : 0 < k3) (P4 : 0 < k4).
  Let E (t : R) : R := exp (- / 2 * t ^ 2).
  Let A4 := ang G.
  Let A3 x y z := RInt (A4 x y z) (- (PI / 2)) (PI / 2).
  Let A2 x y := RInt (A3 x y) (- (PI / 2)) (PI / 2).
  Let A1 x := RInt (A2 x) (- (PI / 2)) (PI / 2).
  Let t1 d1 := d1 / k1.
  Let t2 d1 d2 := (d2 - c2 (t1 d1)) / k2.
  Let t4 d1 d2 d4 := (d4 - c4 (t1 d1) (t2 d1 d2)) / k4.

  Lemma s_pos t : 0 < 1 + t ^ 2. Proof. assert (H := pow2_ge_0 t). lra. Qed.
  Lemma wt_atan t : wt (atan t) = E t * (1 + t ^ 2).
  Proof. unfold wt. destruct Rlt_dec as [L|L]; [rewrite tan_atan; reflexivity|]. exfalso. apply L. assert (A := atan_bound t). apply Rabs_def1; lra. Qed.
  Lemma wt_in u : Rabs u < PI / 2 -> wt u = E (tan u) * (1 + tan u ^ 2).
  Proof. intros L. unfold wt. destruct Rlt_dec; [reflexivity|contradiction]. Qed.
  Lemma box : - (PI / 2) < PI / 2. Proof. assert (P := PI_RGT_0). lra. Qed.
  Lemma cont_scal f k u : uc1 f -> continuous (fun u => f u * k) u.
  Proof. intros U. apply (@continuous_mult R_UniformSpace R_AbsRing); [apply uc1_cont; exact U|apply continuous_const]. Qed.
  Lemma RInt_k f k : uc1 f -> RInt (fun u => f u * k) (- (PI / 2)) (PI / 2) = RInt f (- (PI / 2)) (PI / 2) * k.
  Proof.
    intros U. rewrite (RInt_ext _ (fun u => scal k (f u))) by (intros; unfold scal; simpl; unfold mult; simpl; ring).
    rewrite (@RInt_scal R_CompleteNormedModule) by (apply uc1_ex; exact U). unfold scal. simpl. unfold mult. simpl. apply Rmult_comm.
  Qed.

  Lemma iterated : exists I1 I2 I3,
    (forall d1 d2 d3, line (fun d4 => G (t1 d1) (t2 d1 d2) (d3 / k3) (t4 d1 d2 d4) * exp (- / 2 * (t1 d1 ^ 2 + t2 d1 d2 ^ 2 + (d3 / k3) ^ 2 + t4 d1 d2 d4 ^ 2))) (I1 d1 d2 d3)) /\
    (forall d1 d2, line (I1 d1 d2) (I2 d1 d2)) /\ (forall d1, line (I2 d1) (I3 d1)) /\
    line I3 (RInt A1 (- (PI / 2)) (PI / 2) * (k1 * k2 * k3 * k4)).
  Proof.
    assert (U4 : uc4 A4) by (apply (ang_uc G B); auto). assert (U3 : uc3 A3) by (apply uc4_int; [apply box|exact U4]).
    assert (U2 : uc2 A2) by (apply uc3_int; [apply box|exact U3]). assert (U1 : uc1 A1) by (apply uc2_int; [apply box|exact U2]).
    exists (fun d1 d2 d3 => A3 (atan (t1 d1)) (atan (t2 d1 d2)) (atan (d3 / k3)) * (k4 / ((1 + t1 d1 ^ 2) * (1 + t2 d1 d2 ^ 2) * (1 + (d3 / k3) ^ 2)))),
      (fun d1 d2 => A2 (atan (t1 d1)) (atan (t2 d1 d2)) * (k3 * k4 / ((1 + t1 d1 ^ 2) * (1 + t2 d1 d2 ^ 2)))),
      (fun d1 => A1 (atan (t1 d1)) * (k2 * k3 * k4 / (1 + t1 d1 ^ 2))).
    repeat split.
    - intros d1 d2 d3. set (k := k4 / _). assert (Ua : uc1 (A4 (atan (t1 d1)) (atan (t2 d1 d2)) (atan (d3 / k3)))) by (apply uc2_1, uc3_2, uc4_3; exact U4).
      unfold A3. rewrite <- RInt_k by exact Ua.
      apply (over_line _ (fun u => A4 (atan (t1 d1)) (atan (t2 d1 d2)) (atan (d3 / k3)) u * k) (c4 (t1 d1) (t2 d1 d2)) k4); [exact P4|intros; apply cont_scal; exact Ua|].
      intros u L. unfold A4, ang. rewrite !wt_atan, !tan_atan, (wt_in u L). unfold t4. replace ((c4 (t1 d1) (t2 d1 d2) + k4 * tan u - c4 (t1 d1) (t2 d1 d2)) / k4) with (tan u) by (field; lra).
      rewrite !Rmult_plus_distr_l, !exp_plus. fold (E (t1 d1)) (E (t2 d1 d2)) (E (d3 / k3)) (E (tan u)). unfold k.
      assert (S1 := s_pos (t1 d1)). assert (S2 := s_pos (t2 d1 d2)). assert (S3 := s_pos (d3 / k3)). set (a1 := t1 d1) in *. set (a2 := t2 d1 d2) in *. set (a3 := d3 / k3) in *. clearbody a1 a2 a3. field. repeat split; lra.
    - intros d1 d2. set (k := k3 * k4 / _). assert (Ua : uc1 (A3 (atan (t1 d1)) (atan (t2 d1 d2)))) by (apply uc2_1, uc3_2; exact U3).
      unfold A2. rewrite <- RInt_k by exact Ua.
      apply (over_line _ (fun u => A3 (atan (t1 d1)) (atan (t2 d1 d2)) u * k) 0 k3); [exact P3|intros; apply cont_scal; exact Ua|].
      intros u L. replace ((0 + k3 * tan u) / k3) with (tan u) by (field; lra). apply Rabs_def2 in L. rewrite atan_tan by lra.
      unfold k. assert (S1 := s_pos (t1 d1)). assert (S2 := s_pos (t2 d1 d2)). assert (S3 := s_pos (tan u)). set (a1 := t1 d1) in *. set (a2 := t2 d1 d2) in *. set (a3 := tan u) in *. clearbody a1 a2 a3. field. repeat split; lra.
    - intros d1. set (k := k2 * k3 * k4 / _). assert (Ua : uc1 (A2 (atan (t1 d1)))) by (apply uc2_1; exact U2).
      unfold A1. rewrite <- RInt_k by exact Ua.
      apply (over_line _ (fun u => A2 (atan (t1 d1)) u * k) (c2 (t1 d1)) k2); [exact P2|intros; apply cont_scal; exact Ua|].
      intros u L. unfold t2. replace ((c2 (t1 d1) + k2 * tan u - c2 (t1 d1)) / k2) with (tan u) by (field; lra). apply Rabs_def2 in L. rewrite atan_tan by lra.
      unfold k. assert (S1 := s_pos (t1 d1)). assert (S3 := s_pos (tan u)). set (a1 := t1 d1) in *. set (a3 := tan u) in *. clearbody a1 a3. field. repeat split; lra.
    - set (k := k1 * k2 * k3 * k4). rewrite <- RInt_k by exact U1.
      apply (over_line _ (fun u => A1 u * k) 0 k1); [exact P1|intros; apply cont_scal; exact U1|].
      intros u L. unfold t1. replace ((0 + k1 * tan u) / k1) with (tan u) by (field; lra). apply Rabs_def2 in L. rewrite atan_tan by lra.
      unfold k. assert (S3 := s_pos (tan u)). set (a3 := tan u) in *. clearbody a3. field. lra.
  Qed.
End Iterated.

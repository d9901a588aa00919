(** C75: convolution of a cross section with the resolution function. *)
From Coquelicot Require Import Coquelicot.
From Coq Require Import Reals String List ZArith Lia Lra Bool.
From Verif Require Import Base LinAlg MatInv ConvModel Quad NumBounds Gauss.
Import ListNotations.
Local Open Scope R_scope.

(** An offset from the nominal point: along the three axes of the instrument and in energy, in the order of the matrix. *)
Definition off (d1 d2 d3 d4 : R) : vec := fun i => match i with 0%nat => d1 | 1%nat => d2 | 2%nat => d3 | _ => d4 end.
(** The matrix of a resolution function: positive definite, the vertical direction not coupled to the others. *)
Definition proper (m : mat) : Prop := posdef 4 m /\ forall i, (i < 4)%nat -> i <> 2%nat -> m i 2%nat = 0 /\ m 2%nat i = 0.
(** The cross section [S] away from the nominal point of [p]. *)
Definition away (a : axes) (p : meas) (S : v3 -> R -> R) (d1 d2 d3 d4 : R) : R :=
  S (vadd (me_q p) (vadd (vscal d1 (ax_x a)) (vadd (vscal d2 (ax_y a)) (vscal d3 (ax_z a))))) (me_w p + d4).
(** The integral of the cross section times exp(-(1/2) d M d) over all offsets. *)
Definition folded (a : axes) (p : meas) (S : v3 -> R -> R) (l : R) : Prop := exists I1 I2 I3,
  (forall d1 d2 d3, line (fun d4 => away a p S d1 d2 d3 d4 * exp (- / 2 * qf 4 (me_M p) (off d1 d2 d3 d4))) (I1 d1 d2 d3)) /\
  (forall d1 d2, line (I1 d1 d2) (I2 d1 d2)) /\ (forall d1, line (I2 d1) (I3 d1)) /\ line I3 l.
(** Continuous and bounded. *)
Definition smooth_enough (S : v3 -> R -> R) : Prop :=
  (forall q w e, 0 < e -> exists d, 0 < d /\ forall q' w', Rabs (vx q' - vx q) < d -> Rabs (vy q' - vy q) < d -> Rabs (vz q' - vz q) < d ->
    Rabs (w' - w) < d -> Rabs (S q' w' - S q w) <= e) /\
  exists b, forall q w, Rabs (S q w) <= b.
(** The prefactor and background a caller asks for. *)
Definition asked (pref : option ((nat -> nat -> R) * (nat -> R))) (nargout : Z) (pf : nat -> nat -> R) (bg : nat -> R) : Prop :=
  match pref with
  | None => pf = (fun _ _ => 1) /\ bg = (fun _ => 0)
  | Some (f, b) => pf = f /\ (nargout = 1%Z /\ bg = (fun _ => 0) \/ nargout = 2%Z /\ bg = b)
  end.

(** * The matrix *)
Lemma qf_off m d1 d2 d3 d4 : qf 4 m (off d1 d2 d3 d4) =
  m 0%nat 0%nat * d1 * d1 + m 0%nat 1%nat * d1 * d2 + m 0%nat 2%nat * d1 * d3 + m 0%nat 3%nat * d1 * d4 +
  m 1%nat 0%nat * d2 * d1 + m 1%nat 1%nat * d2 * d2 + m 1%nat 2%nat * d2 * d3 + m 1%nat 3%nat * d2 * d4 +
  m 2%nat 0%nat * d3 * d1 + m 2%nat 1%nat * d3 * d2 + m 2%nat 2%nat * d3 * d3 + m 2%nat 3%nat * d3 * d4 +
  m 3%nat 0%nat * d4 * d1 + m 3%nat 1%nat * d4 * d2 + m 3%nat 2%nat * d4 * d3 + m 3%nat 3%nat * d4 * d4.
Proof. unfold qf. cbn [MatInv.sum off]. ring. Qed.
Lemma proper_sym m i j : proper m -> (i < 4)%nat -> (j < 4)%nat -> m i j = m j i.
Proof. intros [[S _] _] Li Lj. apply (S i j Li Lj). Qed.
Lemma proper_form m d1 d2 d3 d4 : proper m -> qf 4 m (off d1 d2 d3 d4) =
  m 0%nat 0%nat * d1 ^ 2 + 2 * m 0%nat 1%nat * d1 * d2 + 2 * m 0%nat 3%nat * d1 * d4 + m 1%nat 1%nat * d2 ^ 2 + 2 * m 1%nat 3%nat * d2 * d4 +
  m 2%nat 2%nat * d3 ^ 2 + m 3%nat 3%nat * d4 ^ 2.
Proof.
  intros P. rewrite qf_off. assert (Z := proj2 P). destruct (Z 0%nat ltac:(lia) ltac:(lia)) as [Z1 Z2]. destruct (Z 1%nat ltac:(lia) ltac:(lia)) as [Z3 Z4]. destruct (Z 3%nat ltac:(lia) ltac:(lia)) as [Z5 Z6].
  rewrite Z1, Z2, Z3, Z4, Z5, Z6. rewrite (proper_sym m 1 0 P), (proper_sym m 3 0 P), (proper_sym m 3 1 P) by lia. ring.
Qed.
Lemma proper_pos m d1 d2 d3 d4 : proper m -> (d1 <> 0 \/ d2 <> 0 \/ d3 <> 0 \/ d4 <> 0) -> 0 < qf 4 m (off d1 d2 d3 d4).
Proof.
  intros [[_ P] _] N. apply P. destruct N as [N|[N|[N|N]]]; [exists 0%nat|exists 1%nat|exists 2%nat|exists 3%nat]; simpl; auto with arith.
Qed.

Definition rx (m : mat) : R := m 0%nat 0%nat - m 0%nat 3%nat ^ 2 / m 3%nat 3%nat.
Definition rxy (m : mat) : R := m 0%nat 1%nat - m 0%nat 3%nat * m 1%nat 3%nat / m 3%nat 3%nat.
Definition ry (m : mat) : R := m 1%nat 1%nat - m 1%nat 3%nat ^ 2 / m 3%nat 3%nat.
Definition rxx (m : mat) : R := rx m - rxy m ^ 2 / ry m.
Lemma pivots m : proper m -> 0 < m 3%nat 3%nat /\ 0 < ry m /\ 0 < rxx m /\ 0 < m 2%nat 2%nat.
Proof.
  intros P. assert (W : 0 < m 3%nat 3%nat). { assert (Q := proper_pos m 0 0 0 1 P ltac:(right; right; right; lra)). rewrite proper_form in Q by auto. lra. }
  assert (Z : 0 < m 2%nat 2%nat). { assert (Q := proper_pos m 0 0 1 0 P ltac:(right; right; left; lra)). rewrite proper_form in Q by auto. lra. }
  assert (Y : 0 < ry m). { assert (Q := proper_pos m 0 1 0 (- m 1%nat 3%nat / m 3%nat 3%nat) P ltac:(right; left; lra)). rewrite proper_form in Q by auto.
    unfold ry. replace (m 1%nat 1%nat - m 1%nat 3%nat ^ 2 / m 3%nat 3%nat) with (m 0%nat 0%nat * 0 ^ 2 + 2 * m 0%nat 1%nat * 0 * 1 + 2 * m 0%nat 3%nat * 0 * (- m 1%nat 3%nat / m 3%nat 3%nat) + m 1%nat 1%nat * 1 ^ 2 + 2 * m 1%nat 3%nat * 1 * (- m 1%nat 3%nat / m 3%nat 3%nat) + m 2%nat 2%nat * 0 ^ 2 + m 3%nat 3%nat * (- m 1%nat 3%nat / m 3%nat 3%nat) ^ 2); [exact Q|]. field. lra. }
  split; [exact W|]. split; [exact Y|]. split; [|exact Z].
  set (u := - rxy m / ry m). set (v := - (m 0%nat 3%nat + m 1%nat 3%nat * u) / m 3%nat 3%nat).
  assert (Q := proper_pos m 1 u 0 v P ltac:(left; lra)). rewrite proper_form in Q by auto.
  replace (rxx m) with (m 0%nat 0%nat * 1 ^ 2 + 2 * m 0%nat 1%nat * 1 * u + 2 * m 0%nat 3%nat * 1 * v + m 1%nat 1%nat * u ^ 2 + 2 * m 1%nat 3%nat * u * v + m 2%nat 2%nat * 0 ^ 2 + m 3%nat 3%nat * v ^ 2); [exact Q|].
  transitivity (rx m + 2 * rxy m * u + ry m * u ^ 2).
  - unfold v, rx, rxy, ry. field. lra.
  - unfold u, rxx. field. lra.
Qed.
Lemma transform_ok m : proper m -> transform m = Some
  (mkT (1 / sqrt (rxx m)) (1 / sqrt (ry m)) (- rxy m / ry m / sqrt (rxx m)) (1 / sqrt (m 3%nat 3%nat)) (- m 1%nat 3%nat / m 3%nat 3%nat / sqrt (ry m))
       (- (m 0%nat 3%nat / m 3%nat 3%nat - m 1%nat 3%nat / m 3%nat 3%nat * rxy m / ry m) / sqrt (rxx m)) (1 / sqrt (m 2%nat 2%nat)) (rxx m * ry m * m 2%nat 2%nat * m 3%nat 3%nat)).
Proof.
  intros P. destruct (pivots m P) as [W [Y [X Z]]]. unfold transform. fold (rx m) (rxy m) (ry m). fold (rxx m). unfold positive.
  destruct (Rlt_dec 0 (m 3%nat 3%nat)); [|contradiction]. destruct (Rlt_dec 0 (ry m)); [|contradiction]. destruct (Rlt_dec 0 (rxx m)); [|contradiction]. destruct (Rlt_dec 0 (m 2%nat 2%nat)); [|contradiction]. reflexivity.
Qed.

(** The offsets reached from (tx, ty, tz, tw), and back. *)
Section Transform.
  Context (m : mat) (P : proper m).
  Let kx := 1 / sqrt (rxx m).
  Let ky := 1 / sqrt (ry m).
  Let kz := 1 / sqrt (m 2%nat 2%nat).
  Let kw := 1 / sqrt (m 3%nat 3%nat).
  Let cy (tx : R) := - rxy m / ry m / sqrt (rxx m) * tx.
  Let cw (tx ty : R) := - (m 0%nat 3%nat / m 3%nat 3%nat - m 1%nat 3%nat / m 3%nat 3%nat * rxy m / ry m) / sqrt (rxx m) * tx + - m 1%nat 3%nat / m 3%nat 3%nat / sqrt (ry m) * ty.

  Lemma form_t tx ty tz tw : qf 4 m (off (kx * tx) (ky * ty + cy tx) (kz * tz) (cw tx ty + kw * tw)) = tx ^ 2 + ty ^ 2 + tz ^ 2 + tw ^ 2.
  Proof.
    rewrite proper_form by exact P. destruct (pivots m P) as [W [Y [X Z]]]. unfold kx, ky, kz, kw, cy, cw.
    assert (Sx := sqrt_lt_R0 _ X). assert (Sy := sqrt_lt_R0 _ Y). assert (Sz := sqrt_lt_R0 _ Z). assert (Sw := sqrt_lt_R0 _ W).
    assert (Ex := sqrt_sqrt _ (Rlt_le _ _ X)). assert (Ey := sqrt_sqrt _ (Rlt_le _ _ Y)). assert (Ez := sqrt_sqrt _ (Rlt_le _ _ Z)). assert (Ew := sqrt_sqrt _ (Rlt_le _ _ W)).
    set (sx := sqrt (rxx m)) in *. set (sy := sqrt (ry m)) in *. set (sz := sqrt (m 2%nat 2%nat)) in *. set (sw := sqrt (m 3%nat 3%nat)) in *.
    assert (A : m 0%nat 0%nat = rx m + m 0%nat 3%nat ^ 2 / m 3%nat 3%nat) by (unfold rx; ring).
    assert (B : m 0%nat 1%nat = rxy m + m 0%nat 3%nat * m 1%nat 3%nat / m 3%nat 3%nat) by (unfold rxy; ring).
    assert (C : m 1%nat 1%nat = ry m + m 1%nat 3%nat ^ 2 / m 3%nat 3%nat) by (unfold ry; ring).
    assert (D : rx m = rxx m + rxy m ^ 2 / ry m) by (unfold rxx; ring). rewrite A, B, C, D. clear A B C D.
    assert (Ty : tz ^ 2 = m 2%nat 2%nat * (1 / sz * tz) ^ 2) by (rewrite <- Ez; field; lra).
    set (b := m 0%nat 3%nat) in *. set (e := m 1%nat 3%nat) in *. set (xy := rxy m) in *.
    rewrite <- Ex, <- Ey, <- Ez, <- Ew. field. repeat split; lra.
  Qed.
  Lemma k_pos : 0 < kx /\ 0 < ky /\ 0 < kz /\ 0 < kw.
  Proof. destruct (pivots m P) as [W [Y [X Z]]]. unfold kx, ky, kz, kw. repeat split; apply Rdiv_lt_0_compat; try lra; apply sqrt_lt_R0; auto. Qed.
  Lemma form_d d1 d2 d3 d4 : let t1 := d1 / kx in let t2 := (d2 - cy t1) / ky in let t4 := (d4 - cw t1 t2) / kw in
    qf 4 m (off d1 d2 d3 d4) = t1 ^ 2 + t2 ^ 2 + (d3 / kz) ^ 2 + t4 ^ 2.
  Proof.
    intros t1 t2 t4. destruct k_pos as [Px [Py [Pz Pw]]]. rewrite <- form_t.
    replace (kx * t1) with d1 by (unfold t1; field; lra). replace (ky * t2 + cy t1) with d2 by (unfold t2; field; lra).
    replace (kz * (d3 / kz)) with d3 by (field; lra). replace (cw t1 t2 + kw * t4) with d4 by (unfold t4; field; lra). reflexivity.
  Qed.
  Lemma k_det : kx * ky * kz * kw = 1 / sqrt (rxx m * ry m * m 2%nat 2%nat * m 3%nat 3%nat).
  Proof.
    destruct (pivots m P) as [W [Y [X Z]]]. unfold kx, ky, kz, kw.
    assert (Sx := sqrt_lt_R0 _ X). assert (Sy := sqrt_lt_R0 _ Y). assert (Sz := sqrt_lt_R0 _ Z). assert (Sw := sqrt_lt_R0 _ W).
    assert (XY : 0 < rxx m * ry m) by (apply Rmult_lt_0_compat; auto). assert (XYZ : 0 < rxx m * ry m * m 2%nat 2%nat) by (apply Rmult_lt_0_compat; auto).
    rewrite !sqrt_mult by lra. field. repeat split; lra.
  Qed.
End Transform.

(** * The grid *)
Notation lo := (- (PI / 2)).
Notation hi := (PI / 2).
Lemma step_h m : step m = h lo hi (2 * m + 1).
Proof. unfold step, h. rewrite plus_INR, mult_INR. simpl (INR 2). simpl (INR 1). f_equal; field. Qed.
Lemma step_pos m : 0 < step m.
Proof. unfold step. apply Rdiv_lt_0_compat; [apply PI_RGT_0|]. assert (0 <= INR m) by apply pos_INR. lra. Qed.
Lemma grid_mids m : grid m = mids lo hi (2 * m + 1).
Proof.
  unfold grid, mids. rewrite <- step_h. destruct m as [|m].
  - simpl. f_equal. field.
  - unfold linspace_ab. replace (2 * S m + 1)%nat with (S (S (2 * m + 1))) by lia. apply map_ext. intros k. rewrite !S_INR, plus_INR, mult_INR. simpl (INR 2). simpl (INR 1).
    unfold step. rewrite S_INR. assert (0 <= INR m) by apply pos_INR. field. lra.
Qed.
Lemma mids_in n u : In u (mids lo hi n) -> Rabs u < PI / 2.
Proof.
  intros I. unfold mids in I. apply in_map_iff in I. destruct I as [k [E I]]. apply in_seq in I. assert (PP := PI_RGT_0).
  assert (Pn : 0 < INR n) by (apply lt_0_INR; lia). assert (Hp : 0 < h lo hi n) by (unfold h; apply Rdiv_lt_0_compat; lra).
  assert (En : INR n * h lo hi n = PI) by (unfold h; field; lra). assert (Lk : INR k + 1 <= INR n) by (rewrite <- S_INR; apply le_INR; lia). assert (0 <= INR k) by apply pos_INR.
  subst u. apply Rabs_def1; nra.
Qed.
Lemma weight_wt u : Rabs u < PI / 2 -> weight (tan u) = wt u.
Proof. intros L. unfold weight, wt. destruct Rlt_dec; [|contradiction]. f_equal. f_equal. field. Qed.

Lemma sum_order {A} (F : A -> A -> A -> A -> R) lz l :
  Rsum (map (fun z => Rsum (map (fun w => Rsum (map (fun x => Rsum (map (fun y => F x y z w) l)) l)) l)) lz) =
  Rsum (map (fun x => Rsum (map (fun y => Rsum (map (fun z => Rsum (map (fun w => F x y z w) l)) lz)) l)) l).
Proof.
  transitivity (Rsum (map (fun z => Rsum (map (fun x => Rsum (map (fun w => Rsum (map (fun y => F x y z w) l)) l)) l)) lz)).
  { apply Rsum_ext. intros z _. apply (Rsum_swap (fun w x => Rsum (map (fun y => F x y z w) l))). }
  rewrite (Rsum_swap (fun z x => Rsum (map (fun w => Rsum (map (fun y => F x y z w) l)) l))).
  apply Rsum_ext. intros x _. transitivity (Rsum (map (fun z => Rsum (map (fun y => Rsum (map (fun w => F x y z w) l)) l)) lz)).
  { apply Rsum_ext. intros z _. apply (Rsum_swap (fun w y => F x y z w)). }
  apply (Rsum_swap (fun z y => Rsum (map (fun w => F x y z w) l))).
Qed.
Lemma mid_scal a b n f k : mid a b n (fun x => k * f x) = k * mid a b n f.
Proof. unfold mid. rewrite Rsum_scal. ring. Qed.
Lemma fix_mid a T S p m0 m1 : fix_sum a T S p m0 m1 * step m0 ^ 3 * step m1 =
  mid lo hi (2 * m0 + 1) (fun x => mid lo hi (2 * m0 + 1) (fun y => mid lo hi (2 * m1 + 1) (fun z => mid lo hi (2 * m0 + 1) (fun w => ang (sample a T S p) x y z w)))).
Proof.
  unfold fix_sum. rewrite (sum_order (fun cx cy cz cw => sample a T S p (tan cx) (tan cy) (tan cz) (tan cw) * (weight (tan cx) * weight (tan cy) * weight (tan cw)) * weight (tan cz))).
  rewrite !grid_mids, !step_h. set (n := (2 * m0 + 1)%nat). set (n1 := (2 * m1 + 1)%nat). unfold mid.
  rewrite (Rsum_ext (fun x => h lo hi n * Rsum (map (fun y => h lo hi n1 * Rsum (map (fun z => h lo hi n * Rsum (map (fun w => ang (sample a T S p) x y z w) (mids lo hi n))) (mids lo hi n1))) (mids lo hi n)))
    (fun x => h lo hi n ^ 2 * h lo hi n1 * Rsum (map (fun y => Rsum (map (fun z => Rsum (map (fun w => ang (sample a T S p) x y z w) (mids lo hi n))) (mids lo hi n1))) (mids lo hi n)))).
  - rewrite Rsum_scal. transitivity (h lo hi n ^ 3 * h lo hi n1 * Rsum (map (fun x => Rsum (map (fun y => Rsum (map (fun z => Rsum (map (fun w => ang (sample a T S p) x y z w) (mids lo hi n))) (mids lo hi n1))) (mids lo hi n))) (mids lo hi n))); [|ring].
    rewrite Rmult_assoc, Rmult_comm. f_equal. apply Rsum_ext. intros x Ix. apply Rsum_ext. intros y Iy. apply Rsum_ext. intros z Iz. apply Rsum_ext. intros w Iw.
    unfold ang. rewrite !weight_wt by (eapply mids_in; eassumption). ring.
  - intros x _. transitivity (h lo hi n * Rsum (map (fun y => h lo hi n1 * h lo hi n * Rsum (map (fun z => Rsum (map (fun w => ang (sample a T S p) x y z w) (mids lo hi n))) (mids lo hi n1))) (mids lo hi n))).
    + f_equal. apply Rsum_ext. intros y _. rewrite Rsum_scal. ring.
    + rewrite Rsum_scal. ring.
Qed.

(** * Continuity of the sampled cross section *)
Lemma lin_near c0 c1 c2 c3 c4 x y z w : near4 (fun x y z w => c0 + c1 * x + c2 * y + c3 * z + c4 * w) x y z w.
Proof.
  intros e Pe. set (k := Rabs c1 + Rabs c2 + Rabs c3 + Rabs c4 + 1).
  assert (A1 := Rabs_pos c1). assert (A2 := Rabs_pos c2). assert (A3 := Rabs_pos c3). assert (A4 := Rabs_pos c4). assert (Pk : 0 < k) by (unfold k; lra).
  exists (e / k). split; [apply Rdiv_lt_0_compat; auto|]. intros x' y' z' w' Lx Ly Lz Lw.
  replace (c0 + c1 * x' + c2 * y' + c3 * z' + c4 * w' - (c0 + c1 * x + c2 * y + c3 * z + c4 * w)) with (c1 * (x' - x) + (c2 * (y' - y) + (c3 * (z' - z) + c4 * (w' - w)))) by ring.
  assert (M : forall c d, Rabs d < e / k -> Rabs (c * d) <= Rabs c * (e / k)). { intros c d L. rewrite Rabs_mult. apply Rmult_le_compat_l; [apply Rabs_pos|lra]. }
  eapply Rle_trans; [apply Rabs_triang|]. eapply Rle_trans; [apply Rplus_le_compat_l, Rabs_triang|]. eapply Rle_trans; [apply Rplus_le_compat_l, Rplus_le_compat_l, Rabs_triang|].
  apply Rle_trans with (Rabs c1 * (e / k) + (Rabs c2 * (e / k) + (Rabs c3 * (e / k) + Rabs c4 * (e / k)))).
  - apply Rplus_le_compat; [apply M; auto|]. apply Rplus_le_compat; [apply M; auto|]. apply Rplus_le_compat; apply M; auto.
  - replace (Rabs c1 * (e / k) + (Rabs c2 * (e / k) + (Rabs c3 * (e / k) + Rabs c4 * (e / k)))) with ((k - 1) * (e / k)) by (unfold k; ring).
    assert (0 < e / k) by (apply Rdiv_lt_0_compat; auto). assert (k * (e / k) = e) by (field; lra). lra.
Qed.
Lemma near4_eq f g x y z w : (forall x y z w, f x y z w = g x y z w) -> near4 g x y z w -> near4 f x y z w.
Proof. intros E N e Pe. destruct (N e Pe) as [d [Pd D]]. exists d. split; auto. intros. rewrite !E. auto. Qed.
Lemma sample_near a T S p : smooth_enough S -> forall x y z w, near4 (sample a T S p) x y z w.
Proof.
  intros [C _] x y z w e Pe. unfold sample.
  set (q0 := displaced a (me_q p) (tqx T * x) (tqyy T * y + tqyx T * x) (tqz T * z)). set (w0 := me_w p + (tqwx T * x + tqwy T * y + tqww T * w)).
  destruct (C q0 w0 e Pe) as [d [Pd D]].
  assert (L : forall pr : v3 -> R, (forall q d1 d2 d4, pr (displaced a q d1 d2 d4) = pr q + d1 * pr (ax_x a) + d2 * pr (ax_y a) + d4 * pr (ax_z a)) ->
    near4 (fun x y z w => pr (displaced a (me_q p) (tqx T * x) (tqyy T * y + tqyx T * x) (tqz T * z))) x y z w).
  { intros pr E. apply (near4_eq _ (fun x y z w => pr (me_q p) + (tqx T * pr (ax_x a) + tqyx T * pr (ax_y a)) * x + tqyy T * pr (ax_y a) * y + tqz T * pr (ax_z a) * z + 0 * w)); [|apply lin_near].
    intros. rewrite E. ring. }
  destruct (L vx ltac:(intros; reflexivity) (d / 2)) as [d1 [P1 D1]]; [lra|]. destruct (L vy ltac:(intros; reflexivity) (d / 2)) as [d2 [P2 D2]]; [lra|]. destruct (L vz ltac:(intros; reflexivity) (d / 2)) as [d3 [P3 D3]]; [lra|].
  assert (Lw : near4 (fun x y z w => me_w p + (tqwx T * x + tqwy T * y + tqww T * w)) x y z w).
  { apply (near4_eq _ (fun x y z w => me_w p + tqwx T * x + tqwy T * y + 0 * z + tqww T * w)); [intros; ring|apply lin_near]. }
  destruct (Lw (d / 2)) as [d4 [P4 D4]]; [lra|].
  exists (Rmin (Rmin d1 d2) (Rmin d3 d4)). split; [repeat apply Rmin_pos; auto|]. intros x' y' z' w' A1 A2 A3 A4.
  assert (M1 := Rmin_l (Rmin d1 d2) (Rmin d3 d4)). assert (M2 := Rmin_r (Rmin d1 d2) (Rmin d3 d4)).
  assert (M3 := Rmin_l d1 d2). assert (M4 := Rmin_r d1 d2). assert (M5 := Rmin_l d3 d4). assert (M6 := Rmin_r d3 d4).
  specialize (D1 x' y' z' w' ltac:(lra) ltac:(lra) ltac:(lra) ltac:(lra)). specialize (D2 x' y' z' w' ltac:(lra) ltac:(lra) ltac:(lra) ltac:(lra)).
  specialize (D3 x' y' z' w' ltac:(lra) ltac:(lra) ltac:(lra) ltac:(lra)). specialize (D4 x' y' z' w' ltac:(lra) ltac:(lra) ltac:(lra) ltac:(lra)).
  apply D; unfold q0, w0; lra.
Qed.

(** * One mode at one point: the sum tends to the integral *)
Lemma away_displaced a p S d1 d2 d3 d4 : away a p S d1 d2 d3 d4 = S (displaced a (me_q p) d1 d2 d3) (me_w p + d4).
Proof. unfold away. f_equal. apply v3_eq; simpl; ring. Qed.

Lemma one_mode a p S T : proper (me_M p) -> smooth_enough S -> transform (me_M p) = Some T ->
  exists l, folded a p S l /\ forall e, 0 < e -> exists N, forall m0 m1, (N < m0)%nat -> (N < m1)%nat ->
    Rabs (fix_sum a T S p m0 m1 * step m0 ^ 3 * step m1 / sqrt (detM T) - l) <= e.
Proof.
  intros P Sm ET. rewrite transform_ok in ET by exact P. apply (f_equal (fun o => match o with Some t => t | None => T end)) in ET. cbn beta iota in ET.
  destruct (k_pos _ P) as [Px [Py [Pz Pw]]]. assert (FD := form_d _ P). cbv zeta in FD. assert (KD := k_det _ P). destruct (pivots _ P) as [W [Y [X Z]]].
  set (m := me_M p) in *. destruct (proj2 Sm) as [b Bd].
  set (G := sample a T S p).
  destruct (iterated G b (sample_near a T S p Sm) ltac:(intros; apply Bd) (tqx T) (tqyy T) (tqz T) (tqww T) (fun t => tqyx T * t) (fun t u => tqwx T * t + tqwy T * u)) as (I1 & I2 & I3 & H1 & H2 & H3 & H4);
    try (rewrite <- ET; simpl; assumption).
  set (A0 := RInt _ _ _) in H4. exists (A0 * (tqx T * tqyy T * tqz T * tqww T)). split.
  - exists I1, I2, I3. split; [|auto]. intros d1 d2 d3. specialize (H1 d1 d2 d3).
    eapply (is_RInt_gen_ext (V := R_NormedModule)); [|exact H1]. apply filter_forall. intros [u v] d4 _. fold m. rewrite away_displaced.
    rewrite (FD d1 d2 d3 d4). unfold G, sample. rewrite <- ET. cbn [tqx tqyy tqyx tqz tqww tqwx tqwy].
    set (kx := 1 / sqrt (rxx m)) in *. set (ky := 1 / sqrt (ry m)) in *. set (kz := 1 / sqrt (m 2%nat 2%nat)) in *. set (kw := 1 / sqrt (m 3%nat 3%nat)) in *.
    set (c1 := - rxy m / ry m / sqrt (rxx m)). set (c2 := - (m 0%nat 3%nat / m 3%nat 3%nat - m 1%nat 3%nat / m 3%nat 3%nat * rxy m / ry m) / sqrt (rxx m)). set (c3 := - m 1%nat 3%nat / m 3%nat 3%nat / sqrt (ry m)).
    f_equal. f_equal.
    + f_equal; field; lra.
    + field. lra.
  - intros e Pe. assert (Pd : 0 < detM T). { rewrite <- ET. simpl. repeat apply Rmult_lt_0_compat; auto. }
    assert (Sd := sqrt_lt_R0 _ Pd). assert (K : tqx T * tqyy T * tqz T * tqww T = 1 / sqrt (detM T)). { rewrite <- ET. exact KD. }
    destruct (conv4 lo hi box (ang G) (ang_uc G b (sample_near a T S p Sm) ltac:(intros; apply Bd)) (e * sqrt (detM T))) as [N HN]. { apply Rmult_lt_0_compat; auto. }
    exists N. intros m0 m1 L0 L1. rewrite fix_mid, K. specialize (HN (2 * m0 + 1)%nat (2 * m1 + 1)%nat ltac:(lia) ltac:(lia)).
    fold G. set (q := mid _ _ _ _) in *. change (Rabs (q - A0) <= e * sqrt (detM T)) in HN.
    replace (q / sqrt (detM T) - A0 * (1 / sqrt (detM T))) with ((q - A0) * / sqrt (detM T)) by (field; lra). rewrite Rabs_mult, (Rabs_right (/ _)) by (apply Rle_ge, Rlt_le, Rinv_0_lt_compat; auto).
    apply (Rmult_le_reg_r (sqrt (detM T))); auto. rewrite Rmult_assoc, Rinv_l by lra. lra.
Qed.

(** * Limits for large accuracies *)
Definition tends (f : nat -> nat -> R) (l : R) : Prop := forall e, 0 < e -> exists N, forall m0 m1, (N < m0)%nat -> (N < m1)%nat -> Rabs (f m0 m1 - l) <= e.
Lemma tends_const c : tends (fun _ _ => c) c.
Proof. intros e Pe. exists 0%nat. intros. rewrite Rminus_diag_eq, Rabs_R0 by reflexivity. lra. Qed.
Lemma tends_plus f g a b : tends f a -> tends g b -> tends (fun m n => f m n + g m n) (a + b).
Proof.
  intros F G e Pe. destruct (F (e / 2) ltac:(lra)) as [N HN]. destruct (G (e / 2) ltac:(lra)) as [N' HN']. exists (N + N')%nat. intros m0 m1 L0 L1.
  specialize (HN m0 m1 ltac:(lia) ltac:(lia)). specialize (HN' m0 m1 ltac:(lia) ltac:(lia)).
  replace (f m0 m1 + g m0 m1 - (a + b)) with ((f m0 m1 - a) + (g m0 m1 - b)) by ring. eapply Rle_trans; [apply Rabs_triang|]. lra.
Qed.
Lemma tends_scal f a k : tends f a -> tends (fun m n => f m n * k) (a * k).
Proof.
  intros F e Pe. assert (Pk : 0 < Rabs k + 1) by (assert (A := Rabs_pos k); lra). destruct (F (e / (Rabs k + 1))) as [N HN]. { apply Rdiv_lt_0_compat; auto. } exists N. intros m0 m1 L0 L1. specialize (HN m0 m1 L0 L1).
  replace (f m0 m1 * k - a * k) with ((f m0 m1 - a) * k) by ring. rewrite Rabs_mult. apply Rle_trans with (e / (Rabs k + 1) * (Rabs k + 1)).
  - apply Rmult_le_compat; try apply Rabs_pos; auto. lra.
  - right. field. lra.
Qed.
Lemma tends_ext f g l : (forall m n, (0 < m)%nat -> (0 < n)%nat -> f m n = g m n) -> tends f l -> tends g l.
Proof. intros E F e Pe. destruct (F e Pe) as [N HN]. exists N. intros m0 m1 L0 L1. rewrite <- E by lia. auto. Qed.

Lemma all_modes a p T sqw (pf : nat -> nat -> R) (i : nat) : proper (me_M p) -> transform (me_M p) = Some T -> forall modes, (forall j, (j < modes)%nat -> smooth_enough (sqw j)) ->
  exists l, (forall j, (j < modes)%nat -> folded a p (sqw j) (l j)) /\
    tends (fun m0 m1 => Rsum (map (fun j => fix_sum a T (sqw j) p m0 m1 * pf j i) (seq 0 modes)) * step m0 ^ 3 * step m1 / sqrt (detM T)) (Rsum (map (fun j => l j * pf j i) (seq 0 modes))).
Proof.
  intros P ET. induction modes as [|n IH]; intros Sm.
  - exists (fun _ => 0). split; [intros; lia|]. apply (tends_ext (fun _ _ => 0)); [intros; simpl; unfold Rdiv; ring|apply tends_const].
  - destruct IH as [l [F H]]; [intros; apply Sm; lia|]. destruct (one_mode a p (sqw n) T P (Sm n ltac:(lia)) ET) as [v [Fv Hv]].
    exists (fun j => if Nat.eqb j n then v else l j). split.
    + intros j Lj. destruct (Nat.eqb_spec j n); [subst; exact Fv|apply F; lia].
    + rewrite seq_S, map_app, Rsum_app. rewrite (Rsum_ext (fun j => (if Nat.eqb j n then v else l j) * pf j i) (fun j => l j * pf j i)).
      2:{ intros j I. apply in_seq in I. destruct (Nat.eqb_spec j n); [lia|reflexivity]. }
      simpl (map _ [_]). rewrite Nat.eqb_refl. simpl (Rsum [_]). rewrite Rplus_0_r.
      change (tends (fun m0 m1 => fix_sum a T (sqw n) p m0 m1 * step m0 ^ 3 * step m1 / sqrt (detM T)) v) in Hv.
      apply (tends_scal _ v (pf n i)) in Hv. eapply tends_ext; [|exact (tends_plus _ _ _ _ H Hv)].
      intros m0 m1 _ _. cbv beta. rewrite map_app, Rsum_app. simpl (map _ [_]). simpl (Rsum [_]). unfold Rdiv. ring.
Qed.
Lemma mapi_nth {A B} (f : nat -> A -> B) l k i : nth_error (mapi f k l) i = option_map (f (k + i)%nat) (nth_error l i).
Proof.
  revert k i. induction l as [|x l IH]; intros k [|i]; simpl; auto.
  - rewrite Nat.add_0_r. reflexivity.
  - rewrite IH. replace (k + S i)%nat with (S k + i)%nat by lia. reflexivity.
Qed.
Lemma asked_ok pref nargout pf bg : asked pref nargout pf bg -> prefactors pref nargout = Ok (pf, bg).
Proof.
  unfold asked, prefactors. destruct pref as [[f b]|].
  - intros [-> [[-> ->]|[-> ->]]]; reflexivity.
  - intros [-> ->]. reflexivity.
Qed.
Lemma fix_result {St} (g : rng St) a modes sqw pref nargout ps pf bg acc m0 m1 seed s : List.length ps <> 1%nat -> asked pref nargout pf bg -> fix_accuracy acc = Ok (m0, m1) ->
  resolution_convolution g a modes sqw pref nargout ps "fix" acc seed s = (Ok (mapi (fix_point a modes sqw pf bg m0 m1) 0 ps), s).
Proof.
  intros L A Ac. unfold resolution_convolution. rewrite (asked_ok _ _ _ _ A), Ac. destruct ps as [|p [|p' ps]]; try reflexivity. exfalso. apply L. reflexivity.
Qed.
Lemma ints_ok m0 m1 r : fix_accuracy (AList (Z.of_nat m0 :: Z.of_nat m1 :: r)) = Ok (m0, m1).
Proof. unfold fix_accuracy. replace (Z.ltb (Z.of_nat m0) 0) with false by (symmetry; apply Z.ltb_ge; lia). replace (Z.ltb (Z.of_nat m1) 0) with false by (symmetry; apply Z.ltb_ge; lia). simpl. rewrite !Nat2Z.id. reflexivity. Qed.

Lemma line_unique (f f' : R -> R) l l' : (forall t, f t = f' t) -> line f l -> line f' l' -> l' = l.
Proof.
  intros E A B. apply (is_RInt_gen_unique (V := R_CompleteNormedModule)) in B. rewrite <- B. symmetry. apply (is_RInt_gen_unique (V := R_CompleteNormedModule)) in A. rewrite <- A.
  f_equal. apply FunctionalExtensionality.functional_extensionality. exact E.
Qed.
Lemma folded_unique a p S l l' : folded a p S l -> folded a p S l' -> l' = l.
Proof.
  intros (I1 & I2 & I3 & A1 & A2 & A3 & A4) (J1 & J2 & J3 & B1 & B2 & B3 & B4).
  assert (E1 : forall d1 d2 d3, I1 d1 d2 d3 = J1 d1 d2 d3) by (intros; symmetry; eapply line_unique; [|apply A1|apply B1]; reflexivity).
  assert (E2 : forall d1 d2, I2 d1 d2 = J2 d1 d2) by (intros; symmetry; eapply line_unique; [|apply A2|apply B2]; apply E1).
  assert (E3 : forall d1, I3 d1 = J3 d1) by (intros; symmetry; eapply line_unique; [|apply A3|apply B3]; apply E2).
  eapply line_unique; [|exact A4|exact B4]. exact E3.
Qed.

(** ** The fixed grid tends to the convolution *)
Theorem C75_converges : forall St (g : rng St) a modes sqw pref nargout pf bg ps seed s i p,
  List.length ps <> 1%nat -> asked pref nargout pf bg -> nth_error ps i = Some p -> proper (me_M p) -> (forall j, (j < modes)%nat -> smooth_enough (sqw j)) ->
  exists l, (forall j, (j < modes)%nat -> folded a p (sqw j) (l j) /\ forall l', folded a p (sqw j) l' -> l' = l j) /\
  forall e, 0 < e -> exists N, forall m0 m1, (N < m0)%nat -> (N < m1)%nat ->
    exists r v, fst (resolution_convolution g a modes sqw pref nargout ps "fix" (AList [Z.of_nat m0; Z.of_nat m1]) seed s) = Ok r /\
      nth_error r i = Some (Some v) /\ Rabs (v - (me_R0 p * Rsum (map (fun j => l j * pf j i) (seq 0 modes)) + bg i)) <= e.
Proof.
  intros St g a modes sqw pref nargout pf bg ps seed s i p L A Ei P Sm. assert (ET := transform_ok _ P). set (T := mkT _ _ _ _ _ _ _ _) in ET. clearbody T.
  destruct (all_modes a p T sqw pf i P ET modes Sm) as [l [F H]]. exists l. split; [intros j Lj; split; [apply F; exact Lj|intros l'; apply folded_unique, F; exact Lj]|].
  assert (H2 : tends (fun m0 m1 => Rsum (map (fun j => fix_sum a T (sqw j) p m0 m1 * pf j i) (seq 0 modes)) * step m0 ^ 3 * step m1 / sqrt (detM T) * one_point m1 * one_point m0 ^ 3 * me_R0 p + bg i)
    (me_R0 p * Rsum (map (fun j => l j * pf j i) (seq 0 modes)) + bg i)).
  { rewrite (Rmult_comm (me_R0 p)). apply tends_plus; [|apply tends_const]. apply (tends_scal _ _ (me_R0 p)) in H. eapply tends_ext; [|exact H].
    intros m0 m1 P0 P1. destruct m0; [lia|]. destruct m1; [lia|]. cbv beta. unfold one_point. ring. }
  intros e Pe. destruct (H2 e Pe) as [N HN]. exists N. intros m0 m1 L0 L1. rewrite (fix_result g a modes sqw pref nargout ps pf bg _ m0 m1) by (auto using ints_ok).
  simpl fst. eexists. eexists. split; [reflexivity|]. rewrite mapi_nth, Ei. simpl option_map. unfold fix_point. rewrite ET. split; [reflexivity|]. apply HN; auto.
Qed.
Print Assumptions C75_converges.

(** * Cross sections that are linear over the resolution volume *)
Definition linear_fn (S : v3 -> R -> R) : Prop := exists n b c, forall q w, S q w = dot n q + b * w + c.
Definition ssum (m : nat) : R := Rsum (map (fun c => weight (tan c)) (grid m)).
Definition tsum (m : nat) : R := Rsum (map (fun c => weight (tan c) * tan c) (grid m)).
Lemma rev_seq0 n : rev (seq 0 n) = map (fun k => (n - 1 - k)%nat) (seq 0 n).
Proof.
  apply nth_ext with (d := 0%nat) (d' := (n - 1 - 0)%nat); [rewrite rev_length, map_length; reflexivity|]. intros k Lk. rewrite rev_length, seq_length in Lk.
  rewrite rev_nth by (rewrite seq_length; exact Lk). rewrite seq_length, seq_nth by lia. rewrite map_nth, seq_nth by exact Lk. lia.
Qed.
Lemma Rsum_rev l : Rsum (rev l) = Rsum l.
Proof. induction l as [|x l IH]; [reflexivity|]. simpl rev. rewrite Rsum_app, IH. simpl. ring. Qed.
Lemma odd_sum n f : (forall u, f (- u) = - f u) -> Rsum (map f (mids lo hi n)) = 0.
Proof.
  intros O. unfold mids. rewrite map_map. set (f' := fun k => f _).
  assert (E : Rsum (map f' (seq 0 n)) = - Rsum (map f' (seq 0 n))); [|lra].
  rewrite <- (Rsum_rev (map f' (seq 0 n))) at 1. rewrite <- map_rev, rev_seq0, map_map.
  rewrite (Rsum_ext _ (fun k => -1 * f' k)); [rewrite Rsum_scal; ring|]. intros k I. apply in_seq in I. unfold f'.
  replace (lo + h lo hi n / 2 + INR (n - 1 - k) * h lo hi n) with (- (lo + h lo hi n / 2 + INR k * h lo hi n)); [rewrite O; ring|].
  rewrite !minus_INR by lia. simpl (INR 1). assert (En : INR n * h lo hi n = PI) by (unfold h; field; apply not_0_INR; lia). lra.
Qed.
Lemma tsum0 m : tsum m = 0.
Proof. unfold tsum. rewrite grid_mids. apply (odd_sum _ (fun c => weight (tan c) * tan c)). intros u. rewrite tan_neg. unfold weight. replace ((- tan u) ^ 2) with (tan u ^ 2) by ring. ring. Qed.
Lemma lin_sum m K B k : Rsum (map (fun c => (K + B * tan c) * (k * weight (tan c))) (grid m)) = k * K * ssum m.
Proof.
  rewrite (Rsum_ext _ (fun c => k * K * weight (tan c) + k * B * (weight (tan c) * tan c))) by (intros; ring).
  rewrite Rsum_plus, !Rsum_scal. fold (ssum m) (tsum m). rewrite tsum0. ring.
Qed.
Lemma lin_fix a T S p m0 m1 : linear_fn S -> fix_sum a T S p m0 m1 = S (me_q p) (me_w p) * ssum m0 ^ 3 * ssum m1.
Proof.
  intros [n [b [c E]]]. unfold fix_sum.
  set (K := S (me_q p) (me_w p)). set (A := tqx T * dot n (ax_x a) + tqyx T * dot n (ax_y a) + b * tqwx T). set (B := tqyy T * dot n (ax_y a) + b * tqwy T). set (C := tqz T * dot n (ax_z a)). set (D := b * tqww T).
  assert (Es : forall tx ty tz tw, sample a T S p tx ty tz tw = K + A * tx + C * tz + D * tw + B * ty).
  { intros. unfold K, sample. rewrite !E. unfold A, B, C, D, displaced, dot. simpl. ring. }
  rewrite (Rsum_ext _ (fun cz => (K + C * tan cz) * (ssum m0 ^ 3 * weight (tan cz)))); [rewrite lin_sum; ring|]. intros cz _.
  rewrite (Rsum_ext _ (fun cw => (K + C * tan cz + D * tan cw) * (ssum m0 ^ 2 * weight (tan cz) * weight (tan cw)))).
  { rewrite lin_sum. ring. } intros cw _.
  rewrite (Rsum_ext _ (fun cx => (K + C * tan cz + D * tan cw + A * tan cx) * (ssum m0 * weight (tan cz) * weight (tan cw) * weight (tan cx)))).
  { rewrite lin_sum. ring. } intros cx _.
  rewrite (Rsum_ext _ (fun cy => (K + C * tan cz + D * tan cw + A * tan cx + B * tan cy) * (weight (tan cz) * weight (tan cw) * weight (tan cx) * weight (tan cy)))).
  { rewrite lin_sum. ring. } intros cy _. rewrite Es. ring.
Qed.
(** The determinant of a proper matrix. *)
Definition det_of (m : mat) : R :=
  m 2%nat 2%nat * det (M (m 0%nat 0%nat) (m 0%nat 1%nat) (m 0%nat 3%nat) (m 1%nat 0%nat) (m 1%nat 1%nat) (m 1%nat 3%nat) (m 3%nat 0%nat) (m 3%nat 1%nat) (m 3%nat 3%nat)).
Lemma det_ok m : proper m -> rxx m * ry m * m 2%nat 2%nat * m 3%nat 3%nat = det_of m.
Proof.
  intros P. destruct (pivots m P) as [W [Y [X Z]]]. unfold det_of, det. simpl. rewrite (proper_sym m 1 0 P), (proper_sym m 3 0 P), (proper_sym m 3 1 P) by lia.
  unfold rxx. replace ((rx m - rxy m ^ 2 / ry m) * ry m * m 2%nat 2%nat * m 3%nat 3%nat) with ((rx m * ry m - rxy m ^ 2) * m 2%nat 2%nat * m 3%nat 3%nat) by (field; lra). unfold rx, ry, rxy. field. lra.
Qed.

Lemma weight_total : RInt wt lo hi = sqrt (2 * PI).
Proof.
  assert (G := over_line (fun t => exp (- / 2 * t ^ 2)) wt 0 1 ltac:(lra) (fun u => near1_cont wt u (wt_near u))).
  assert (G' : is_RInt_gen (fun t : R => exp (- / 2 * t ^ 2)) (Rbar_locally m_infty) (Rbar_locally p_infty) (RInt wt lo hi)).
  { apply G. intros u L. rewrite wt_in by exact L. replace (0 + 1 * tan u) with (tan u) by ring. ring. } clear G.
  assert (X : forall t : R, exp (- / 2 * t ^ 2) = 1 * exp (- / 2 * (0 + 1 * (t + 0) ^ 2))) by (intros; rewrite Rmult_1_l; f_equal; ring).
  assert (L := gauss_integral 1 0 1 0 ltac:(lra)).
  assert (L1 : is_lim (fun T => RInt (fun t => 1 * exp (- / 2 * (0 + 1 * (t + 0) ^ 2))) (- T) T) p_infty (RInt wt lo hi)).
  { intros Q HQ. unfold is_RInt_gen, filterlimi in G'. destruct (G' Q HQ) as [Qa Qb Ha Hb H]. destruct Ha as [ma Ha]. destruct Hb as [mb Hb].
    exists (Rmax (- ma) mb). intros T LT. assert (M1 := Rmax_l (- ma) mb). assert (M2 := Rmax_r (- ma) mb).
    destruct (H (- T) T ltac:(apply Ha; lra) ltac:(apply Hb; lra)) as [y [Hy Qy]]. simpl in Hy. apply (@is_RInt_unique R_CompleteNormedModule) in Hy.
    replace (RInt (fun t => 1 * exp (- / 2 * (0 + 1 * (t + 0) ^ 2))) (- T) T) with y; [exact Qy|]. rewrite <- Hy. apply RInt_ext. intros t _. exact (X t). }
  apply is_lim_unique in L. apply is_lim_unique in L1. rewrite L1 in L. injection L. intros E. refine (eq_trans E _). replace (- / 2 * 0) with 0 by ring. rewrite exp_0. replace (2 * PI / 1) with (2 * PI) by field. ring.
Qed.
Lemma wt_uc : uc1 wt.
Proof.
  assert (N1 : forall x y z w, near4 (fun _ _ _ _ => 1) x y z w) by (intros x y z w e Pe; exists 1; split; [lra|]; intros; rewrite Rminus_diag_eq, Rabs_R0; lra).
  assert (U := ang_uc (fun _ _ _ _ => 1) 1 N1 ltac:(intros; apply Req_le, Rabs_R1)).
  assert (W0 : wt 0 = 1). { rewrite wt_in by (rewrite Rabs_R0; assert (P := PI_RGT_0); lra). rewrite tan_0. replace (- / 2 * 0 ^ 2) with 0 by ring. rewrite exp_0. ring. }
  intros e Pe. destruct (U e Pe) as [d [Pd D]]. exists d. split; auto. intros x x' Lx. specialize (D x 0 0 0 x' 0 0 0 Lx (R00 0 d Pd) (R00 0 d Pd) (R00 0 d Pd)).
  unfold ang in D. rewrite !W0 in D. replace (wt x - wt x') with (1 * (wt x * 1 * 1 * 1) - 1 * (wt x' * 1 * 1 * 1)) by ring. exact D.
Qed.
Definition norm1 (m : nat) : R := one_point m * step m * ssum m.
Lemma norm1_mid m : (0 < m)%nat -> norm1 m = mid lo hi (2 * m + 1) wt.
Proof.
  intros Pm. unfold norm1, mid, ssum. rewrite <- step_h, <- grid_mids. destruct m; [lia|]. unfold one_point. rewrite Rmult_1_l. f_equal. apply Rsum_ext. intros u I. rewrite grid_mids in I. apply weight_wt. eapply mids_in. exact I.
Qed.
Lemma norm1_lim e : 0 < e -> exists N, forall m, (N < m)%nat -> Rabs (norm1 m - sqrt (2 * PI)) <= e.
Proof.
  intros Pe. assert (PP := PI_RGT_0). destruct (wt_uc (e / PI)) as [d [Pd D]]. { apply Rdiv_lt_0_compat; auto. }
  destruct (h_small lo hi d Pd) as [N HN]. exists N. intros m Lm. rewrite norm1_mid by lia. rewrite <- weight_total.
  replace e with ((hi - lo) * (e / PI)) by (field; lra). apply (mid_err lo hi box _ wt d); auto using wt_uc. lia. apply HN. lia.
Qed.
Lemma norm1_0 : Rabs (norm1 0 - sqrt (2 * PI)) <= / 10 ^ 4.
Proof.
  assert (E : norm1 0 = 79788 / 100000 * PI). { unfold norm1, ssum, grid, linspace_ab, step. simpl. replace (- PI / 2 + PI / (2 * 0 + 1) / 2) with 0 by field. rewrite tan_0. unfold weight. replace (- (5 / 10) * 0 ^ 2) with 0 by ring. rewrite exp_0. field. }
  rewrite E. destruct PI_bounds as [B1 B2]. assert (S0 := sqrt_pos (2 * PI)). assert (SS := sqrt_sqrt (2 * PI) ltac:(lra)).
  assert (U : sqrt (2 * PI) < 250663 / 100000) by (apply Rnot_le_lt; intros C; nra). assert (V : 25066 / 10000 < sqrt (2 * PI)) by (apply Rnot_le_lt; intros C; nra).
  apply Rabs_le. lra.
Qed.

Theorem C75_linear : exists c, Rabs (c 0%nat - sqrt (2 * PI)) <= / 10 ^ 4 /\ (forall e, 0 < e -> exists N, forall m, (N < m)%nat -> Rabs (c m - sqrt (2 * PI)) <= e) /\
  forall St (g : rng St) a modes sqw pref nargout pf bg ps seed s i p m0 m1 more,
  List.length ps <> 1%nat -> asked pref nargout pf bg -> nth_error ps i = Some p -> proper (me_M p) -> (forall j, (j < modes)%nat -> linear_fn (sqw j)) ->
  exists r, fst (resolution_convolution g a modes sqw pref nargout ps "fix" (AList (Z.of_nat m0 :: Z.of_nat m1 :: more)) seed s) = Ok r /\
    nth_error r i = Some (Some (me_R0 p * (c m0 ^ 3 * c m1 / sqrt (det_of (me_M p))) * Rsum (map (fun j => sqw j (me_q p) (me_w p) * pf j i) (seq 0 modes)) + bg i)).
Proof.
  exists norm1. split; [apply norm1_0|]. split; [apply norm1_lim|]. intros St g a modes sqw pref nargout pf bg ps seed s i p m0 m1 more L A Ei P Sm.
  rewrite (fix_result g a modes sqw pref nargout ps pf bg _ m0 m1) by (auto using ints_ok). eexists. split; [reflexivity|]. rewrite mapi_nth, Ei. simpl option_map. unfold fix_point. rewrite transform_ok by exact P. cbn [detM]. rewrite det_ok by exact P. set (T := mkT _ _ _ _ _ _ _ _).
  f_equal. f_equal. rewrite (Rsum_ext _ (fun j => ssum m0 ^ 3 * ssum m1 * (sqw j (me_q p) (me_w p) * pf j i))).
  - rewrite Rsum_scal. unfold norm1, Rdiv. ring.
  - intros j I. apply in_seq in I. rewrite lin_fix by (apply Sm; lia). ring.
Qed.
Print Assumptions C75_linear.

(** * Monte Carlo *)
(** The state of the random numbers after [k] draws, and the draw number [k], when every draw is preceded by seeding if a seed is given. *)
Definition before {St} (g : rng St) (seed : option Z) (s : St) : St := match seed with Some z => reseed g z | None => s end.
Fixpoint after {St} (g : rng St) (seed : option Z) (k : nat) (s : St) : St := match k with O => s | S k => snd (draw g (before g seed (after g seed k s))) end.
Definition drawn {St} (g : rng St) (seed : option Z) (k : nat) (s : St) : nat -> nat -> R := fst (draw g (before g seed (after g seed k s))).

Lemma after_add {St} (g : rng St) seed k n s : after g seed k (after g seed n s) = after g seed (k + n) s.
Proof. induction k as [|k IH]; [reflexivity|]. simpl. rewrite IH. reflexivity. Qed.
Lemma turns_ok {St} (g : rng St) seed f n : forall acc s,
  (forall j, fst (mc_turns g seed f n acc s) j = acc j + Rsum (map (fun k => f (fun i c => drawn g seed k s i c * PI - PI / 2) j) (seq 0 n))) /\
  snd (mc_turns g seed f n acc s) = after g seed n s.
Proof.
  induction n as [|n IH]; intros acc s; [split; [intros; simpl; ring|reflexivity]|].
  simpl mc_turns. unfold next. fold (before g seed s). assert (D0 : drawn g seed 0 s = fst (draw g (before g seed s))) by reflexivity. assert (S1 : after g seed 1 s = snd (draw g (before g seed s))) by reflexivity.
  destruct (draw g (before g seed s)) as [r s'] eqn:Ed. cbn [fst snd] in D0, S1. destruct (IH (fun j => acc j + f (fun i k => r i k * PI - PI / 2) j) s') as [A B]. split.
  - intros j. rewrite A. simpl seq. simpl map. simpl Rsum. rewrite D0. rewrite <- seq_shift, map_map. rewrite Rplus_assoc. f_equal. f_equal. apply Rsum_ext. intros k _. rewrite <- S1. unfold drawn. rewrite after_add, Nat.add_1_r. reflexivity.
  - rewrite B, <- S1, after_add, Nat.add_1_r. reflexivity.
Qed.
Definition mc_value (a : axes) (modes : nat) (sqw : nat -> v3 -> R -> R) (pf : nat -> nat -> R) (bg : nat -> R) (z : Z) (i : nat) (p : meas) (acc : nat -> R) : option R :=
  match transform (me_M p) with None => None | Some T => if Z.eqb z 0 then None
    else Some (Rsum (map (fun j => acc j * pf j i) (seq 0 modes)) / IZR z / 1000 * PI ^ 4 / sqrt (detM T) * me_R0 p + bg i) end.
Lemma points_ok {St} (g : rng St) seed a modes sqw pf bg z : forall ps i s,
  mc_points g seed a modes sqw pf bg z i ps s =
  (mapi (fun i' p => mc_value a modes sqw pf bg z i' p (fun j => match transform (me_M p) with None => 0 | Some T =>
      Rsum (map (fun k => mc_sum a T (sqw j) p (fun x c => drawn g seed ((i' - i) * Z.to_nat z + k) s x c * PI - PI / 2)) (seq 0 (Z.to_nat z))) end)) i ps,
   after g seed (List.length ps * Z.to_nat z) s).
Proof.
  induction ps as [|p ps IH]; intros i s; [reflexivity|]. cbn [mc_points mapi List.length]. set (n := Z.to_nat z) in *.
  assert (R : forall r s', r = mc_value a modes sqw pf bg z i p (fun j => match transform (me_M p) with None => 0 | Some T => Rsum (map (fun k => mc_sum a T (sqw j) p (fun x c => drawn g seed ((i - i) * n + k) s x c * PI - PI / 2)) (seq 0 n)) end) ->
    s' = after g seed n s -> (let '(rs, s) := mc_points g seed a modes sqw pf bg z (S i) ps s' in (r :: rs, s)) =
    (r :: mapi (fun i' p => mc_value a modes sqw pf bg z i' p (fun j => match transform (me_M p) with None => 0 | Some T => Rsum (map (fun k => mc_sum a T (sqw j) p (fun x c => drawn g seed ((i' - i) * n + k) s x c * PI - PI / 2)) (seq 0 n)) end)) (S i) ps, after g seed (S (List.length ps) * n) s)).
  { intros r s' Er Es. rewrite IH, Es, after_add. f_equal; [f_equal|f_equal; lia].
    assert (E : forall l k, (S i <= k)%nat -> mapi (fun i' p => mc_value a modes sqw pf bg z i' p (fun j => match transform (me_M p) with None => 0 | Some T => Rsum (map (fun k => mc_sum a T (sqw j) p (fun x c => drawn g seed ((i' - S i) * n + k) (after g seed n s) x c * PI - PI / 2)) (seq 0 n)) end)) k l
      = mapi (fun i' p => mc_value a modes sqw pf bg z i' p (fun j => match transform (me_M p) with None => 0 | Some T => Rsum (map (fun k => mc_sum a T (sqw j) p (fun x c => drawn g seed ((i' - i) * n + k) s x c * PI - PI / 2)) (seq 0 n)) end)) k l).
    { induction l as [|x l IHl]; intros k Lk; [reflexivity|]. cbn [mapi]. f_equal; [|apply IHl; lia]. f_equal. apply FunctionalExtensionality.functional_extensionality. intros j. destruct (transform (me_M x)); [|reflexivity].
      apply Rsum_ext. intros c _. f_equal. unfold drawn. rewrite after_add. replace ((k - S i) * n + c + n)%nat with ((k - i) * n + c)%nat; [reflexivity|]. replace (k - i)%nat with (S (k - S i)) by lia. simpl. lia. }
    apply E. lia. }
  unfold mc_value at 1. destruct (transform (me_M p)) as [T|] eqn:ET.
  - destruct (turns_ok g seed (fun c j => mc_sum a T (sqw j) p c) n (fun _ => 0) s) as [A B]. destruct (mc_turns g seed _ n (fun _ => 0) s) as [acc s'] eqn:Em. simpl in A, B.
    rewrite R with (s' := s'); [|unfold mc_value; rewrite ET; destruct (Z.eqb z 0); [reflexivity|]; f_equal; f_equal|exact B].
    + f_equal. f_equal. destruct (Z.eqb z 0); [reflexivity|]. f_equal. f_equal. f_equal. f_equal. f_equal. f_equal. f_equal. f_equal. apply map_ext. intros j. rewrite A, Nat.sub_diag, Rplus_0_l. reflexivity.
    + f_equal. f_equal. f_equal. f_equal. f_equal. f_equal. apply map_ext. intros j. rewrite A, Nat.sub_diag, Rplus_0_l. reflexivity.
  - destruct (turns_ok g seed (fun _ _ => 0) n (fun _ => 0) s) as [_ B]. rewrite R with (s' := snd (mc_turns g seed (fun _ _ => 0) n (fun _ => 0) s)); [reflexivity|unfold mc_value; rewrite ET; reflexivity|exact B].
Qed.

Lemma mapi_length {A B} (f : nat -> A -> B) l : forall k, List.length (mapi f k l) = List.length l.
Proof. induction l as [|x l IH]; intros k; [reflexivity|]. simpl. rewrite IH. reflexivity. Qed.
Lemma mapi_ext {A B} (f f' : nat -> A -> B) l : (forall i x, f i x = f' i x) -> forall k, mapi f k l = mapi f' k l.
Proof. intros H. induction l as [|x l IH]; intros k; [reflexivity|]. simpl. rewrite IH, H. reflexivity. Qed.
Lemma mc_result {St} (g : rng St) a modes sqw pref nargout ps pf bg acc z seed s : List.length ps <> 1%nat -> asked pref nargout pf bg -> mc_accuracy acc = Ok z ->
  resolution_convolution g a modes sqw pref nargout ps "mc" acc seed s = let '(r, s) := mc_points g seed a modes sqw pf bg z 0 ps s in (Ok r, s).
Proof.
  intros L A Ac. unfold resolution_convolution. rewrite (asked_ok _ _ _ _ A), Ac. destruct ps as [|p [|p' ps]]; try reflexivity. exfalso. apply L. reflexivity.
Qed.

(** The number ACCURACY stands for with METHOD 'mc'. *)
Definition turns_asked (acc : accuracy) (n : nat) : Prop := match acc with ANone => n = 10%nat | AInt z => z = Z.of_nat n | AList l => l = [Z.of_nat n] end.
Lemma turns_asked_ok acc n : turns_asked acc n -> mc_accuracy acc = Ok (Z.of_nat n).
Proof. destruct acc as [|z|l]; simpl; intros ->; reflexivity. Qed.

(** A linear substitution that turns the quadratic form into a sum of squares. *)
Definition straightens (m : mat) (D : R -> R -> R -> R -> vec) : Prop :=
  (exists T : nat -> nat -> R, forall t1 t2 t3 t4 i, (i < 4)%nat -> D t1 t2 t3 t4 i = T i 0%nat * t1 + T i 1%nat * t2 + T i 2%nat * t3 + T i 3%nat * t4) /\
  forall t1 t2 t3 t4, qf 4 m (D t1 t2 t3 t4) = t1 ^ 2 + t2 ^ 2 + t3 ^ 2 + t4 ^ 2.

(** ** Monte Carlo takes the mean of the integrand over the points drawn *)
Theorem C75_mc : forall m, proper m -> exists D, straightens m D /\
  forall St (g : rng St) a modes sqw pref nargout pf bg ps acc n seed s,
  List.length ps <> 1%nat -> asked pref nargout pf bg -> turns_asked acc n -> (0 < n)%nat ->
  exists r, resolution_convolution g a modes sqw pref nargout ps "mc" acc seed s = (Ok r, after g seed (List.length ps * n) s) /\ List.length r = List.length ps /\
  forall i p, nth_error ps i = Some p -> me_M p = m ->
    nth_error r i = Some (Some (me_R0 p * (PI ^ 4 / sqrt (det_of m)) *
      (Rsum (map (fun k => Rsum (map (fun c => let t x := tan (PI * drawn g seed (i * n + k) s x c - PI / 2) in let d := D (t 0%nat) (t 1%nat) (t 2%nat) (t 3%nat) in
         Rsum (map (fun j => pf j i * away a p (sqw j) (d 0%nat) (d 1%nat) (d 2%nat) (d 3%nat)) (seq 0 modes)) *
         exp (- / 2 * qf 4 m d) * ((1 + t 0%nat ^ 2) * (1 + t 1%nat ^ 2) * (1 + t 2%nat ^ 2) * (1 + t 3%nat ^ 2)))
        (seq 0 1000))) (seq 0 n)) / (1000 * INR n)) + bg i)).
Proof.
  intros m P. assert (ET := transform_ok _ P). set (T := mkT _ _ _ _ _ _ _ _) in ET.
  exists (fun t1 t2 t3 t4 => off (tqx T * t1) (tqyy T * t2 + tqyx T * t1) (tqz T * t3) (tqwx T * t1 + tqwy T * t2 + tqww T * t4)). split.
  { split.
    - exists (fun i j => match i, j with 0%nat, 0%nat => tqx T | 1%nat, 0%nat => tqyx T | 1%nat, 1%nat => tqyy T | 2%nat, 2%nat => tqz T | 3%nat, 0%nat => tqwx T | 3%nat, 1%nat => tqwy T | 3%nat, 3%nat => tqww T | _, _ => 0 end).
      intros t1 t2 t3 t4 [|[|[|[|i]]]] Li; try lia; unfold off; ring.
    - intros. apply (form_t m P). }
  intros St g a modes sqw pref nargout pf bg ps acc n seed s L A Ta Pn. rewrite (mc_result g a modes sqw pref nargout ps pf bg acc (Z.of_nat n)) by (auto using turns_asked_ok).
  rewrite points_ok, Nat2Z.id. eexists. split; [reflexivity|]. split; [apply mapi_length|].
  intros i p Ei Em. rewrite mapi_nth, Ei. simpl option_map. rewrite Nat.sub_0_r. unfold mc_value. rewrite Em, ET. replace (Z.eqb (Z.of_nat n) 0) with false by (symmetry; apply Z.eqb_neq; lia). f_equal. f_equal. f_equal.
  rewrite <- INR_IZR_INZ. replace (sqrt (detM T)) with (sqrt (det_of m)) by (rewrite <- det_ok by exact P; reflexivity).
  assert (Nn : INR n <> 0) by (apply not_0_INR; lia).
  transitivity (Rsum (map (fun j => Rsum (map (fun k => mc_sum a T (sqw j) p (fun x c => drawn g seed (i * n + k) s x c * PI - PI / 2)) (seq 0 n)) * pf j i) (seq 0 modes)) * (/ (1000 * INR n) * (PI ^ 4 / sqrt (det_of m)) * me_R0 p)).
  { unfold Rdiv. rewrite Rinv_mult. ring. }
  transitivity (Rsum (map (fun k => Rsum (map (fun c => let t x := tan (PI * drawn g seed (i * n + k) s x c - PI / 2) in let d := off (tqx T * t 0%nat) (tqyy T * t 1%nat + tqyx T * t 0%nat) (tqz T * t 2%nat) (tqwx T * t 0%nat + tqwy T * t 1%nat + tqww T * t 3%nat) in
         Rsum (map (fun j => pf j i * away a p (sqw j) (d 0%nat) (d 1%nat) (d 2%nat) (d 3%nat)) (seq 0 modes)) *
         exp (- / 2 * qf 4 m d) * ((1 + t 0%nat ^ 2) * (1 + t 1%nat ^ 2) * (1 + t 2%nat ^ 2) * (1 + t 3%nat ^ 2)))
        (seq 0 1000))) (seq 0 n)) * (/ (1000 * INR n) * (PI ^ 4 / sqrt (det_of m)) * me_R0 p)); [|unfold Rdiv; ring]. f_equal.
  transitivity (Rsum (map (fun j => Rsum (map (fun k => mc_sum a T (sqw j) p (fun x c => drawn g seed (i * n + k) s x c * PI - PI / 2) * pf j i) (seq 0 n))) (seq 0 modes))).
  { apply Rsum_ext. intros j _. rewrite (Rsum_ext (fun k => _ * pf j i) (fun k => pf j i * mc_sum a T (sqw j) p (fun x c => drawn g seed (i * n + k) s x c * PI - PI / 2))) by (intros; ring). rewrite Rsum_scal. ring. }
  rewrite (Rsum_swap (fun j k => mc_sum a T (sqw j) p (fun x c => drawn g seed (i * n + k) s x c * PI - PI / 2) * pf j i)). apply Rsum_ext. intros k _. unfold mc_sum.
  transitivity (Rsum (map (fun j => Rsum (map (fun c => pf j i * (let tx := tan (drawn g seed (i * n + k) s 0%nat c * PI - PI / 2) in let ty := tan (drawn g seed (i * n + k) s 1%nat c * PI - PI / 2) in let tz := tan (drawn g seed (i * n + k) s 2%nat c * PI - PI / 2) in let tw := tan (drawn g seed (i * n + k) s 3%nat c * PI - PI / 2) in
      sample a T (sqw j) p tx ty tz tw * (exp (- (5 / 10) * (tx ^ 2 + ty ^ 2 + tz ^ 2 + tw ^ 2)) * (1 + tx ^ 2) * (1 + ty ^ 2) * (1 + tz ^ 2) * (1 + tw ^ 2)))) (seq 0 1000))) (seq 0 modes))).
  { apply Rsum_ext. intros j _. rewrite Rsum_scal. apply Rmult_comm. }
  rewrite (Rsum_swap (fun j c => pf j i * _)). apply Rsum_ext. intros c _. cbv zeta. rewrite !(Rmult_comm PI). set (t1 := tan _). set (t2 := tan _). set (t3 := tan _). set (t4 := tan _).
  rewrite (form_t m P t1 t2 t3 t4 : qf 4 m (off (tqx T * t1) (tqyy T * t2 + tqyx T * t1) (tqz T * t3) (tqwx T * t1 + tqwy T * t2 + tqww T * t4)) = _).
  replace (- / 2 * (t1 ^ 2 + t2 ^ 2 + t3 ^ 2 + t4 ^ 2)) with (- (5 / 10) * (t1 ^ 2 + t2 ^ 2 + t3 ^ 2 + t4 ^ 2)) by field. set (ex := exp _).
  rewrite (Rsum_ext _ (fun j => ex * ((1 + t1 ^ 2) * (1 + t2 ^ 2) * (1 + t3 ^ 2) * (1 + t4 ^ 2)) * (pf j i * away a p (sqw j) (off (tqx T * t1) (tqyy T * t2 + tqyx T * t1) (tqz T * t3) (tqwx T * t1 + tqwy T * t2 + tqww T * t4) 0%nat) (off (tqx T * t1) (tqyy T * t2 + tqyx T * t1) (tqz T * t3) (tqwx T * t1 + tqwy T * t2 + tqww T * t4) 1%nat) (off (tqx T * t1) (tqyy T * t2 + tqyx T * t1) (tqz T * t3) (tqwx T * t1 + tqwy T * t2 + tqww T * t4) 2%nat) (off (tqx T * t1) (tqyy T * t2 + tqyx T * t1) (tqz T * t3) (tqwx T * t1 + tqwy T * t2 + tqww T * t4) 3%nat)))).
  - rewrite Rsum_scal. ring.
  - intros j _. cbn [off]. rewrite away_displaced. unfold sample. ring.
Qed.
Print Assumptions C75_mc.

(** ** With a seed every turn draws the same points *)
Lemma seeded {St} (g : rng St) z k s : drawn g (Some z) k s = fst (draw g (reseed g z)).
Proof. reflexivity. Qed.
Lemma Rsum_const {A} (c : R) (l : list A) : Rsum (map (fun _ => c) l) = INR (List.length l) * c.
Proof. induction l as [|x l IH]; [simpl; ring|]. cbn [map List.length]. rewrite S_INR. simpl Rsum. rewrite IH. ring. Qed.
Theorem C75_seed : forall St (g : rng St) a modes sqw pref nargout ps acc acc' n n' z s s',
  turns_asked acc n -> turns_asked acc' n' -> (0 < n)%nat -> (0 < n')%nat ->
  fst (resolution_convolution g a modes sqw pref nargout ps "mc" acc (Some z) s) = fst (resolution_convolution g a modes sqw pref nargout ps "mc" acc' (Some z) s') /\
  forall r, fst (resolution_convolution g a modes sqw pref nargout ps "mc" acc (Some z) s) = Ok r -> ps <> [] ->
    snd (resolution_convolution g a modes sqw pref nargout ps "mc" acc (Some z) s) = snd (draw g (reseed g z)).
Proof.
  intros St g a modes sqw pref nargout ps acc acc' n n' z s s' A A' Pn Pn'.
  assert (V : forall acc n s, turns_asked acc n -> (0 < n)%nat -> resolution_convolution g a modes sqw pref nargout ps "mc" acc (Some z) s =
    match ps with [_] => (Err IndexError, s) | _ => match prefactors pref nargout with Err e => (Err e, s) | Ok (pf, bg) =>
      (Ok (mapi (fun i p => match transform (me_M p) with None => None | Some T => Some (Rsum (map (fun j => mc_sum a T (sqw j) p (fun x c => fst (draw g (reseed g z)) x c * PI - PI / 2) * pf j i) (seq 0 modes)) / 1000 * PI ^ 4 / sqrt (detM T) * me_R0 p + bg i) end) 0 ps),
       match ps with [] => s | _ => snd (draw g (reseed g z)) end) end end).
  { clear. intros acc n s A Pn. unfold resolution_convolution. rewrite (turns_asked_ok _ _ A). destruct ps as [|p [|p' ps]]; [|reflexivity|].
    - destruct (prefactors pref nargout) as [[pf bg]|e]; reflexivity.
    - set (l := p :: p' :: ps). destruct (prefactors pref nargout) as [[pf bg]|e]; [|reflexivity]. cbn [String.eqb Ascii.eqb Bool.eqb]. rewrite points_ok, Nat2Z.id. f_equal.
      + f_equal. apply mapi_ext. intros i x.
        unfold mc_value. destruct (transform (me_M x)) as [T|]; [|reflexivity]. replace (Z.eqb (Z.of_nat n) 0) with false by (symmetry; apply Z.eqb_neq; lia). f_equal. f_equal. f_equal. f_equal. f_equal. f_equal.
        rewrite <- INR_IZR_INZ. assert (Nn : INR n <> 0) by (apply not_0_INR; lia). apply (Rmult_eq_reg_r (INR n)); [|exact Nn]. unfold Rdiv at 1. rewrite Rmult_assoc, Rinv_l, Rmult_1_r by exact Nn. rewrite Rmult_comm, <- Rsum_scal. apply Rsum_ext. intros j _.
        rewrite (Rsum_ext _ (fun _ => mc_sum a T (sqw j) x (fun x0 c => fst (draw g (reseed g z)) x0 c * PI - PI / 2))) by (intros; reflexivity). rewrite Rsum_const, seq_length. ring.
      + unfold l. cbn [List.length]. destruct n; [lia|]. reflexivity. }
  rewrite (V acc n s A Pn), (V acc' n' s' A' Pn'). split.
  - destruct ps as [|p [|p' ps]]; [| reflexivity |]; destruct (prefactors pref nargout) as [[pf bg]|e]; reflexivity.
  - intros r E N. destruct ps as [|p [|p' ps]]; [contradiction| discriminate |]. destruct (prefactors pref nargout) as [[pf bg]|e]; [reflexivity|discriminate].
Qed.
Print Assumptions C75_seed.

(** ** The result is linear and increasing in the cross section *)
Definition good_call (method : string) (acc : accuracy) : Prop :=
  method = "fix"%string /\ (acc = ANone \/ exists m0 m1 more, acc = AList (Z.of_nat m0 :: Z.of_nat m1 :: more)) \/ method = "mc"%string /\ exists n, (0 < n)%nat /\ turns_asked acc n.
Definition linear_up (F : (v3 -> R -> R) -> R) : Prop :=
  (forall S S' k, F (fun q w => k * S q w + S' q w) = k * F S + F S') /\ (forall S S', (forall q w, S q w <= S' q w) -> F S <= F S').
Lemma Rsum_le {A} (f f' : A -> R) l : (forall x, In x l -> f x <= f' x) -> Rsum (map f l) <= Rsum (map f' l).
Proof. induction l as [|x l IH]; intros H; simpl; [lra|]. assert (A1 := H x (or_introl eq_refl)). assert (A2 := IH (fun y I => H y (or_intror I))). lra. Qed.
Lemma lu_sum {A} (F : A -> (v3 -> R -> R) -> R) l : (forall x, In x l -> linear_up (F x)) -> linear_up (fun S => Rsum (map (fun x => F x S) l)).
Proof.
  intros H. split.
  - intros S S' k. rewrite (Rsum_ext _ (fun x => k * F x S + F x S')) by (intros x I; apply (proj1 (H x I))). rewrite Rsum_plus, Rsum_scal. reflexivity.
  - intros S S' L. apply Rsum_le. intros x I. apply (proj2 (H x I)). exact L.
Qed.
Lemma lu_scal F c : 0 <= c -> linear_up F -> linear_up (fun S => F S * c).
Proof. intros P [L U]. split; [intros; rewrite L; ring|]. intros S S' H. apply Rmult_le_compat_r; auto. Qed.
Lemma lu_sample a T p t1 t2 t3 t4 : linear_up (fun S => sample a T S p t1 t2 t3 t4).
Proof. split; [reflexivity|]. intros S S' H. apply H. Qed.
Lemma weight_pos t : 0 <= weight t.
Proof. unfold weight. apply Rmult_le_pos; [left; apply exp_pos|]. nra. Qed.
Lemma lu_fix a T p m0 m1 : linear_up (fun S => fix_sum a T S p m0 m1).
Proof.
  unfold fix_sum. do 4 (apply (lu_sum (fun c S => _)); intros ? _). apply (lu_scal (fun S => _)); [apply weight_pos|]. apply (lu_scal (fun S => _)); [|apply lu_sample]. apply Rmult_le_pos; [apply Rmult_le_pos|]; apply weight_pos.
Qed.
Lemma lu_mc a T p c : linear_up (fun S => mc_sum a T S p c).
Proof.
  unfold mc_sum. apply (lu_sum (fun c S => _)). intros ? _. cbv zeta. apply (lu_scal (fun S => _)); [|apply lu_sample].
  repeat apply Rmult_le_pos; try nra. left. apply exp_pos.
Qed.
Lemma one_point_pos m : 0 <= one_point m.
Proof. destruct m; simpl; lra. Qed.
Theorem C75_functional : forall St (g : rng St) a ps method acc seed s, List.length ps <> 1%nat -> good_call method acc ->
  exists F s', (forall i, linear_up (F i)) /\
  forall modes sqw pref nargout pf bg, asked pref nargout pf bg ->
    exists r, resolution_convolution g a modes sqw pref nargout ps method acc seed s = (Ok r, s') /\ List.length r = List.length ps /\
      forall i p, nth_error ps i = Some p -> proper (me_M p) -> nth_error r i = Some (Some (me_R0 p * Rsum (map (fun j => pf j i * F i (sqw j)) (seq 0 modes)) + bg i)).
Proof.
  intros St g a ps method acc seed s L [[-> Ac]|[-> [n [Pn Ac]]]].
  - assert (E : exists m0 m1, fix_accuracy acc = Ok (m0, m1)). { destruct Ac as [->|(m0 & m1 & more & ->)]; [exists 7%nat, 0%nat; reflexivity|exists m0, m1; apply ints_ok]. } destruct E as [m0 [m1 E]].
    exists (fun i S => match nth_error ps i with Some p => match transform (me_M p) with Some T => fix_sum a T S p m0 m1 * (step m0 ^ 3 * step m1 / sqrt (detM T) * one_point m1 * one_point m0 ^ 3) | None => 0 end | None => 0 end), s. split.
    + intros i. assert (Z0 : linear_up (fun _ => 0)) by (split; intros; [ring|lra]). destruct (nth_error ps i) as [p|]; [|exact Z0]. destruct (transform (me_M p)) as [T|]; [|exact Z0]. apply lu_scal; [|apply lu_fix].
      assert (S0 := step_pos m0). assert (S1 := step_pos m1). assert (O0 := one_point_pos m0). assert (O1 := one_point_pos m1).
      apply Rmult_le_pos; [apply Rmult_le_pos; [|exact O1]|apply pow_le; exact O0].
      apply Rmult_le_pos; [apply Rmult_le_pos; [apply pow_le|]; lra|]. destruct (Req_dec (sqrt (detM T)) 0) as [->|N]; [rewrite Rinv_0; lra|]. left. apply Rinv_0_lt_compat. assert (H := sqrt_pos (detM T)). lra.
    + intros modes sqw pref nargout pf bg A. rewrite (fix_result g a modes sqw pref nargout ps pf bg _ m0 m1) by auto. eexists. split; [reflexivity|]. split; [apply mapi_length|]. intros i p Ei P. rewrite mapi_nth, Ei. simpl option_map. unfold fix_point. rewrite transform_ok by exact P. set (T := mkT _ _ _ _ _ _ _ _).
      f_equal. f_equal. f_equal. rewrite (Rsum_ext (fun j => pf j i * _) (fun j => step m0 ^ 3 * step m1 / sqrt (detM T) * one_point m1 * one_point m0 ^ 3 * (fix_sum a T (sqw j) p m0 m1 * pf j i))) by (intros; ring). rewrite Rsum_scal. unfold Rdiv. ring.
  - exists (fun i S => match nth_error ps i with Some p => match transform (me_M p) with Some T => Rsum (map (fun k => mc_sum a T S p (fun x c => drawn g seed (i * n + k) s x c * PI - PI / 2)) (seq 0 n)) * (/ INR n / 1000 * PI ^ 4 / sqrt (detM T)) | None => 0 end | None => 0 end), (after g seed (List.length ps * n) s). split.
    + intros i. assert (Z0 : linear_up (fun _ => 0)) by (split; intros; [ring|lra]). destruct (nth_error ps i) as [p|]; [|exact Z0]. destruct (transform (me_M p)) as [T|]; [|exact Z0]. apply (lu_scal (fun S => Rsum _)); [|apply (lu_sum (fun k S => mc_sum _ _ _ _ _)); intros; apply lu_mc].
      assert (0 < INR n) by (apply lt_0_INR; exact Pn). assert (PP := PI_RGT_0). apply Rmult_le_pos; [apply Rmult_le_pos; [|apply pow_le; lra]|].
      * apply Rmult_le_pos; [|lra]. left. apply Rinv_0_lt_compat. auto.
      * destruct (Req_dec (sqrt (detM T)) 0) as [->|N]; [rewrite Rinv_0; lra|]. left. apply Rinv_0_lt_compat. assert (H' := sqrt_pos (detM T)). lra.
    + intros modes sqw pref nargout pf bg A. rewrite (mc_result g a modes sqw pref nargout ps pf bg acc (Z.of_nat n)) by (auto using turns_asked_ok). rewrite points_ok, Nat2Z.id. eexists. split; [reflexivity|]. split; [apply mapi_length|].
      intros i p Ei P. rewrite mapi_nth, Ei. simpl option_map. rewrite Nat.sub_0_r. unfold mc_value. rewrite transform_ok by exact P. set (T := mkT _ _ _ _ _ _ _ _). replace (Z.eqb (Z.of_nat n) 0) with false by (symmetry; apply Z.eqb_neq; lia). f_equal. f_equal. f_equal. rewrite <- INR_IZR_INZ.
      set (f := fun j => Rsum (map (fun k => mc_sum a T (sqw j) p (fun x c => drawn g seed (i * n + k) s x c * PI - PI / 2)) (seq 0 n))).
      change (Rsum (map (fun j => f j * pf j i) (seq 0 modes)) / INR n / 1000 * PI ^ 4 / sqrt (detM T) * me_R0 p = me_R0 p * Rsum (map (fun j => pf j i * (f j * (/ INR n / 1000 * PI ^ 4 / sqrt (detM T)))) (seq 0 modes))).
      rewrite (Rsum_ext (fun j => pf j i * _) (fun j => / INR n / 1000 * PI ^ 4 / sqrt (detM T) * (f j * pf j i))) by (intros; ring). rewrite Rsum_scal. unfold Rdiv. ring.
Qed.
Print Assumptions C75_functional.

(** ** Only seven entries of the matrix matter *)
Definition same_point (p p' : meas) : Prop := me_q p = me_q p' /\ me_w p = me_w p' /\ me_R0 p = me_R0 p' /\
  forall i j, In (i, j) [(0, 0); (0, 1); (0, 3); (1, 1); (1, 3); (2, 2); (3, 3)]%nat -> me_M p i j = me_M p' i j.
Theorem C75_unused : forall St (g : rng St) a modes sqw pref nargout ps ps' method acc seed s, Forall2 same_point ps ps' ->
  resolution_convolution g a modes sqw pref nargout ps method acc seed s = resolution_convolution g a modes sqw pref nargout ps' method acc seed s.
Proof.
  intros St g a modes sqw pref nargout ps ps' method acc seed s H.
  assert (T : forall p p', same_point p p' -> transform (me_M p) = transform (me_M p')).
  { intros p p' (_ & _ & _ & E). unfold transform. rewrite !E by (simpl; tauto). reflexivity. }
  assert (Sa : forall p p' t S x y z w, same_point p p' -> sample a t S p x y z w = sample a t S p' x y z w). { intros p p' t S x y z w (E1 & E2 & _). unfold sample. rewrite E1, E2. reflexivity. }
  assert (Fx : forall p p' pf bg m0 m1 i, same_point p p' -> fix_point a modes sqw pf bg m0 m1 i p = fix_point a modes sqw pf bg m0 m1 i p').
  { intros p p' pf bg m0 m1 i E. unfold fix_point. rewrite (T _ _ E). destruct (transform (me_M p')) as [t|]; [|reflexivity]. assert (E3 : me_R0 p = me_R0 p') by apply E. rewrite E3. f_equal. f_equal. f_equal. f_equal. f_equal. f_equal. f_equal. f_equal.
    apply Rsum_ext. intros j _. f_equal. unfold fix_sum. do 4 (apply Rsum_ext; intros ? _). rewrite (Sa p p') by exact E. reflexivity. }
  assert (Fm : forall pf bg, forall ps ps', Forall2 same_point ps ps' -> forall i s z, mc_points g seed a modes sqw pf bg z i ps s = mc_points g seed a modes sqw pf bg z i ps' s).
  { clear H ps ps'. intros pf bg ps ps' H. induction H as [|p p' ps ps' E H IH]; intros i s0 z; [reflexivity|]. cbn [mc_points]. rewrite (T _ _ E). assert (E3 : me_R0 p = me_R0 p') by apply E. rewrite E3.
    destruct (transform (me_M p')) as [t|]; [|rewrite IH; reflexivity].
    replace (fun (c : nat -> nat -> R) j => mc_sum a t (sqw j) p c) with (fun (c : nat -> nat -> R) j => mc_sum a t (sqw j) p' c).
    - destruct (mc_turns g seed _ _ _ s0) as [ac s1]. rewrite IH. reflexivity.
    - apply FunctionalExtensionality.functional_extensionality. intros c. apply FunctionalExtensionality.functional_extensionality. intros j. unfold mc_sum. apply Rsum_ext. intros k _. cbv zeta. rewrite (Sa p p') by exact E. reflexivity. }
  assert (Fi : forall pf bg m0 m1, forall ps ps', Forall2 same_point ps ps' -> forall i, mapi (fix_point a modes sqw pf bg m0 m1) i ps = mapi (fix_point a modes sqw pf bg m0 m1) i ps').
  { clear H ps ps'. intros pf bg m0 m1 ps ps' H. induction H as [|p p' ps ps' E H IH]; intros i; [reflexivity|]. cbn [mapi]. rewrite IH, (Fx p p') by exact E. reflexivity. }
  unfold resolution_convolution. assert (H' := H). destruct H as [|p p' ps ps' E H]; [reflexivity|]. destruct H as [|p2 p2' ps ps' E2 H]; [reflexivity|].
  destruct (prefactors pref nargout) as [[pf bg]|e]; [|reflexivity]. destruct (String.eqb method "fix").
  - destruct (fix_accuracy acc) as [[m0 m1]|e]; [|reflexivity]. rewrite (Fi pf bg m0 m1 _ _ H'). reflexivity.
  - destruct (String.eqb method "mc"); [|reflexivity]. destruct (mc_accuracy acc) as [n|e]; [|reflexivity]. rewrite (Fm pf bg _ _ H'). reflexivity.
Qed.
Print Assumptions C75_unused.

(** ** Calls that do not give a result *)
Theorem C75_errors : forall St (g : rng St) a modes sqw pref nargout method acc seed s,
  let call ps := resolution_convolution g a modes sqw pref nargout ps method acc seed s in
  (forall p, call [p] = (Err IndexError, s)) /\
  (forall ps, List.length ps <> 1%nat -> pref <> None -> nargout <> 1%Z -> nargout <> 2%Z -> call ps = (Err ValueError, s)) /\
  (forall ps pf bg, List.length ps <> 1%nat -> asked pref nargout pf bg ->
    (method <> "fix"%string -> method <> "mc"%string -> call ps = (Err ValueError, s)) /\
    (method = "fix"%string -> (exists z, acc = AInt z) -> call ps = (Err TypeError, s)) /\
    (method = "fix"%string -> (exists l, acc = AList l /\ (List.length l < 2)%nat) -> call ps = (Err IndexError, s)) /\
    (method = "fix"%string -> (exists x y l, acc = AList (x :: y :: l) /\ (x < 0 \/ y < 0)%Z) -> call ps = (Err ValueError, s)) /\
    (method = "mc"%string -> (exists l, acc = AList l /\ List.length l <> 1%nat) -> call ps = (Err ValueError, s)) /\
    (method = "mc"%string -> acc = AInt 0 \/ acc = AList [0%Z] -> exists r, call ps = (Ok r, s) /\ List.length r = List.length ps /\ forall v, In v r -> v = None)).
Proof.
  intros St g a modes sqw pref nargout method acc seed s call. split; [reflexivity|]. split.
  - intros ps L N N1 N2. unfold call, resolution_convolution, prefactors. destruct pref as [[f b]|]; [|contradiction]. destruct (Z.eqb_spec nargout 2); [contradiction|]. destruct (Z.eqb_spec nargout 1); [contradiction|].
    destruct ps as [|p [|p' ps]]; try reflexivity. exfalso. apply L. reflexivity.
  - intros ps pf bg L A. assert (V : call ps = if String.eqb method "fix" then match fix_accuracy acc with Err e => (Err e, s) | Ok (m0, m1) => (Ok (mapi (fix_point a modes sqw pf bg m0 m1) 0 ps), s) end
      else if String.eqb method "mc" then match mc_accuracy acc with Err e => (Err e, s) | Ok n => let '(r, s) := mc_points g seed a modes sqw pf bg n 0 ps s in (Ok r, s) end else (Err ValueError, s)).
    { unfold call, resolution_convolution. rewrite (asked_ok _ _ _ _ A). destruct ps as [|p [|p' ps]]; try reflexivity. exfalso. apply L. reflexivity. }
    rewrite V. clear V call. split; [|split; [|split; [|split; [|split]]]].
    + intros N1 N2. destruct (String.eqb_spec method "fix"); [contradiction|]. destruct (String.eqb_spec method "mc"); [contradiction|]. reflexivity.
    + intros -> [z ->]. reflexivity.
    + intros -> [l [-> Ll]]. destruct l as [|x [|y l]]; [reflexivity|reflexivity|]. simpl in Ll. lia.
    + intros -> (x & y & l & -> & N). cbn [String.eqb Ascii.eqb Bool.eqb fix_accuracy]. replace (Z.ltb x 0 || Z.ltb y 0)%bool with true; [reflexivity|]. symmetry. apply orb_true_iff. rewrite !Z.ltb_lt. exact N.
    + intros -> [l [-> Ll]]. destruct l as [|x [|y l]]; [reflexivity|exfalso; apply Ll; reflexivity|reflexivity].
    + intros -> Z0. replace (mc_accuracy acc) with (Ok 0%Z : res Z) by (destruct Z0 as [->| ->]; reflexivity). cbn [String.eqb Ascii.eqb Bool.eqb]. rewrite points_ok. replace (List.length ps * Z.to_nat 0)%nat with 0%nat by (simpl; lia).
      eexists. split; [reflexivity|]. split; [apply mapi_length|]. intros v I. apply In_nth_error in I. destruct I as [i E]. rewrite mapi_nth in E. destruct (nth_error ps i) as [p|]; [|discriminate]. simpl in E. injection E. intros <-. unfold mc_value. destruct (transform (me_M p)); reflexivity.
Qed.
Print Assumptions C75_errors.

(** * A case *)
(** A matrix with all the couplings a horizontal spectrometer has. *)
Definition ex_m : mat := fun i j => match i, j with
  | 0%nat, 0%nat => 4 | 1%nat, 1%nat => 5 | 2%nat, 2%nat => 3 | 3%nat, 3%nat => 6
  | 0%nat, 1%nat | 1%nat, 0%nat => 1 | 0%nat, 3%nat | 3%nat, 0%nat => -2 | 1%nat, 3%nat | 3%nat, 1%nat => 1 | _, _ => 0 end.
Example C75_case_matrix : proper ex_m.
Proof.
  split; [split|].
  - intros i j Li Lj. destruct i as [|[|[|[|i]]]]; try lia; destruct j as [|[|[|[|j]]]]; try lia; reflexivity.
  - intros x [i [Li Nx]]. assert (E : qf 4 ex_m x = 6 * (x 3%nat - x 0%nat / 3 + x 1%nat / 6) ^ 2 + 29 / 6 * (x 1%nat + 8 / 29 * x 0%nat) ^ 2 + 86 / 29 * x 0%nat ^ 2 + 3 * x 2%nat ^ 2).
    { unfold qf, ex_m. cbn [MatInv.sum]. field. }
    rewrite E. assert (S1 := pow2_ge_0 (x 3%nat - x 0%nat / 3 + x 1%nat / 6)). assert (S2 := pow2_ge_0 (x 1%nat + 8 / 29 * x 0%nat)). assert (S3 := pow2_ge_0 (x 0%nat)). assert (S4 := pow2_ge_0 (x 2%nat)).
    destruct (Req_dec (x 0%nat) 0) as [E0|N0]; [|assert (0 < x 0%nat ^ 2) by (rewrite <- Rsqr_pow2; apply Rsqr_pos_lt; exact N0); lra]. rewrite E0 in *.
    destruct (Req_dec (x 2%nat) 0) as [E2|N2]; [|assert (0 < x 2%nat ^ 2) by (rewrite <- Rsqr_pow2; apply Rsqr_pos_lt; exact N2); lra]. rewrite E2 in *.
    destruct (Req_dec (x 1%nat) 0) as [E1|N1].
    + rewrite E1 in *. assert (N3 : x 3%nat <> 0) by (destruct i as [|[|[|[|i]]]]; try lia; congruence || exact Nx). assert (0 < x 3%nat ^ 2) by (rewrite <- Rsqr_pow2; apply Rsqr_pos_lt; exact N3). nra.
    + assert (0 < x 1%nat ^ 2) by (rewrite <- Rsqr_pow2; apply Rsqr_pos_lt; exact N1). nra.
  - intros i Li N. destruct i as [|[|[|[|i]]]]; try lia; split; reflexivity.
Qed.
(** A mode with a Lorentzian of energy, and one that is the same everywhere. *)
Example C75_case_smooth : smooth_enough (fun _ w => / (1 + w ^ 2)).
Proof.
  assert (Pw : forall w, 1 <= 1 + w ^ 2) by (intros; assert (H := pow2_ge_0 w); lra). split.
  - intros q w e Pe. exists (Rmin 1 (e / (2 * Rabs w + 1))). assert (A := Rabs_pos w). split; [apply Rmin_pos; [lra|apply Rdiv_lt_0_compat; lra]|].
    intros q' w' _ _ _ L. assert (L1 := Rmin_l 1 (e / (2 * Rabs w + 1))). assert (L2 := Rmin_r 1 (e / (2 * Rabs w + 1))). assert (P1 := Pw w). assert (P2 := Pw w').
    replace (/ (1 + w' ^ 2) - / (1 + w ^ 2)) with ((w - w') * ((w + w') * / ((1 + w' ^ 2) * (1 + w ^ 2)))) by (field; lra). rewrite Rabs_mult, Rabs_minus_sym.
    assert (B : Rabs ((w + w') * / ((1 + w' ^ 2) * (1 + w ^ 2))) <= 2 * Rabs w + 1).
    { rewrite Rabs_mult, (Rabs_right (/ _)) by (apply Rle_ge, Rlt_le, Rinv_0_lt_compat; nra). assert (I1 : / ((1 + w' ^ 2) * (1 + w ^ 2)) <= 1) by (rewrite <- Rinv_1; apply Rinv_le_contravar; nra).
      assert (T : Rabs (w + w') <= 2 * Rabs w + 1). { replace (w + w') with ((w + w) + (w' - w)) by ring. eapply Rle_trans; [apply Rabs_triang|]. eapply Rle_trans; [apply Rplus_le_compat_r, Rabs_triang|]. lra. }
      assert (P3 : 0 <= Rabs (w + w')) by apply Rabs_pos. nra. }
    apply Rle_trans with (e / (2 * Rabs w + 1) * (2 * Rabs w + 1)); [|right; field; lra]. apply Rmult_le_compat; try apply Rabs_pos; lra.
  - exists 1. intros q w. assert (P1 := Pw w). rewrite Rabs_right by (apply Rle_ge, Rlt_le, Rinv_0_lt_compat; lra). rewrite <- Rinv_1. apply Rinv_le_contravar; lra.
Qed.
Example C75_case_linear : linear_fn (fun q w => 2 * vx q - w + 3).
Proof. exists (V 2 0 0), (-1), 3. intros q w. unfold dot. simpl. ring. Qed.
Example C75_case_call : asked (Some (fun j i => INR (j + i), fun i => INR i)) 2 (fun j i => INR (j + i)) (fun i => INR i) /\ good_call "mc" (AInt 5) /\ good_call "fix" ANone /\ turns_asked ANone 10.
Proof. split; [split; [reflexivity|right; split; reflexivity]|]. split; [right; split; [reflexivity|]; exists 5%nat; split; [lia|reflexivity]|]. split; [left; split; [reflexivity|left; reflexivity]|reflexivity]. Qed.

(** How far the rational approximations of the line shape (SmaModel.v) are from solving w' = 2 t w - 2 / sqrt pi, over the regions of
    the plane on which they are used.  Used by VoigtAcc.v. *)
From Coq Require Import Reals.
From Coquelicot Require Import Coquelicot.
From Coq Require Import List ZArith Lra Lia Psatz Bool.
From Verif Require Import VoigtDisk.
Import ListNotations.
Local Open Scope R_scope.

Fixpoint padd (a b : list Z) : list Z := match a, b with [], _ => b | _, [] => a | x :: a, y :: b => (x + y)%Z :: padd a b end.
Definition psc (k : Z) (a : list Z) : list Z := map (Z.mul k) a.
Fixpoint pmul (a b : list Z) : list Z := match a with [] => [] | x :: a => padd (psc x b) (0%Z :: pmul a b) end.
Fixpoint pder (a : list Z) : list Z := match a with [] => [] | x :: a => padd a (0%Z :: pder a) end.
Lemma zr_add a b : zr (a + b) = (zr a + zr b)%C. Proof. unfold zr. rewrite plus_IZR. apply RtoC_plus. Qed.
Lemma zr_0 : zr 0 = 0%C. Proof. reflexivity. Qed.
Lemma padd_ok a : forall b t, zeval (padd a b) t = (zeval a t + zeval b t)%C.
Proof.
  induction a as [|x a IH]; intros [|y b] t; cbn [padd]; rewrite ?zeval_cons, ?zeval_nil; try ring. rewrite IH, zr_add. ring.
Qed.
Lemma psc_ok k a t : zeval (psc k a) t = (zr k * zeval a t)%C.
Proof. induction a as [|x a IH]; cbn [psc map]; rewrite ?zeval_cons, ?zeval_nil; [ring|]. fold (psc k a). rewrite IH, zr_mul. ring. Qed.
Lemma pmul_ok a b t : zeval (pmul a b) t = (zeval a t * zeval b t)%C.
Proof. induction a as [|x a IH]; cbn [pmul]; rewrite ?zeval_nil; [ring|]. rewrite padd_ok, psc_ok, !zeval_cons, IH, zr_0. ring. Qed.

(** 2 / sqrt pi is close to CN / CD. *)
Definition CN : Z := 11283791671.
Definition CD : Z := 10 ^ 10.
Definition defect (N D : list Z) (s : Z) : list Z :=
  padd (psc CD (padd (padd (pmul (pder N) D) (psc (-1) (pmul N (pder D)))) (psc (-2) (0%Z :: pmul N D)))) (psc (s * CN) (pmul D D)).
Lemma defect_ok N D s t : zeval (defect N D s) t =
  (zr CD * (zeval (pder N) t * zeval D t - zeval N t * zeval (pder D) t - 2 * t * (zeval N t * zeval D t)) + zr (s * CN) * (zeval D t * zeval D t))%C.
Proof.
  unfold defect. rewrite !padd_ok, !psc_ok, !padd_ok, !psc_ok, !zeval_cons, !pmul_ok, zr_0. replace (zr (-1)) with (- (1))%C by (apply c_eq; unfold zr; simpl; ring). replace (zr (-2)) with (- (2))%C by (apply c_eq; unfold zr; simpl; ring). ring.
Qed.

(** The coefficients, times 10^8. *)
Definition N1 : list Z := [0; 56418960]%Z.
Definition D1 : list Z := [50000000; 0; 100000000]%Z.
Definition N2 : list Z := [0; 141047400; 0; 56418960]%Z.
Definition D2 : list Z := [75000000; 0; 300000000; 0; 100000000]%Z.
Definition N3 : list Z := [1649550000; 2020933000; 1196482000; 377898700; 56422360]%Z.
Definition D3 : list Z := [1649550000; 3882363000; 3927121000; 2169274000; 669939800; 100000000]%Z.
Definition N4 : list Z := [0; 3618331000000; 0; -332199000000; 0; 154078700000; 0; -21903100000; 0; 3576680000; 0; -132052200; 0; 56419000]%Z.
Definition D4 : list Z := [3206660000000; 0; -2432280000000; 0; 902223000000; 0; -218618000000; 0; 36421900000; 0; -6157040000; 0; 184144000; 0; -100000000]%Z.

Definition q8 : Z := 256.
Definition q6 : Z := 64.
Definition ks3 : list cons := [((-1000)%Z, 195%Z, (177 * q8)%Z); (0%Z, 100%Z, (475 * q8)%Z)].
Definition ks2 : list cons := [(1%Z, 0%Z, 67%Z); (0%Z, (-1)%Z, 67%Z); (1%Z, (-1)%Z, 94%Z)].
Definition ks1 : list cons := [(1%Z, 0%Z, 25%Z); (0%Z, (-1)%Z, 25%Z); (1%Z, (-1)%Z, 35%Z)].
Definition ks4a : list cons := [(1%Z, 0%Z, 0%Z)].
Definition ks4 : list cons := [(1000%Z, (-195)%Z, (-176 * q6)%Z); (100%Z, 0%Z, (75 * q6)%Z)].
Definition ks4f : list cons := [(0%Z, (-8)%Z, q8); (1%Z, 0%Z, 4%Z)].
Definition P3 : list Z := Eval vm_compute in defect N3 D3 1.
Definition P2 : list Z := Eval vm_compute in defect N2 D2 1.
Definition P1 : list Z := Eval vm_compute in defect N1 D1 1.
Definition P4 : list Z := Eval vm_compute in defect N4 D4 (-1).
Fixpoint evens (l : list Z) : list Z := match l with [] => [] | [a] => [a] | a :: _ :: l => a :: evens l end.
Definition PE4 : list Z := Eval vm_compute in evens P4.
Definition DE4 : list Z := Eval vm_compute in evens D4.
Definition e32 : Z := (32 * CD)%Z.
Definition e2 : Z := (2 * CD)%Z.
Definition h5 : Z := (10 ^ 5)%Z.
Lemma cert3n : covers q8 P3 D3 e32 h5 ks3 11 0 0 = true. Proof. vm_compute. reflexivity. Qed.
Lemma cert3f : covers q8 (rev P3) (rev D3) e32 h5 [] 6 0 (-64) = true. Proof. vm_compute. reflexivity. Qed.
Lemma cert2f : covers q8 (rev P2) (rev D2) e32 h5 ks2 7 0 (-128) = true. Proof. vm_compute. reflexivity. Qed.
Lemma cert1f : covers q8 (rev P1) (rev D1) e32 h5 ks1 5 0 (-32) = true. Proof. vm_compute. reflexivity. Qed.
Lemma cert4a : squares q6 PE4 DE4 e2 h5 ks4a 9 0 0 = true. Proof. vm_compute. reflexivity. Qed.
Lemma cert4n : squares q6 PE4 DE4 e2 h5 ks4 9 0 0 = true. Proof. vm_compute. reflexivity. Qed.
Lemma cert4f : covers q8 (rev P4) (rev D4) e2 h5 ks4f 6 0 (-64) = true. Proof. vm_compute. reflexivity. Qed.

Definition inv (t : C) : C := (fst t / (fst t * fst t + snd t * snd t), - snd t / (fst t * fst t + snd t * snd t)).
Lemma inv_ok t : 0 < fst t * fst t + snd t * snd t -> (t * inv t = 1)%C.
Proof. intros H. apply c_eq; unfold inv; simpl; field; lra. Qed.
Lemma e32_pos : (0 <= e32)%Z. Proof. vm_compute. discriminate. Qed.
Lemma e2_pos : (0 <= e2)%Z. Proof. vm_compute. discriminate. Qed.
Lemma h5_pos : (0 <= h5)%Z. Proof. vm_compute. discriminate. Qed.

Lemma div_le x y n : 0 < n -> x <= y * n -> x / n <= y.
Proof. intros P H. apply (Rmult_le_reg_r n); [exact P|]. replace (x / n * n) with x by (field; lra). exact H. Qed.
Lemma div_ge x y n : 0 < n -> y * n <= x -> y <= x / n.
Proof. intros P H. apply (Rmult_le_reg_r n); [exact P|]. replace (x / n * n) with x by (field; lra). exact H. Qed.
(** Where the inverse is: |v| <= 1 / r. *)
Lemma inv_in t r : 0 < r -> 0 <= fst t -> 0 <= snd t -> r * r <= fst t * fst t + snd t * snd t ->
  0 <= fst (inv t) <= / r /\ - / r <= snd (inv t) <= 0 /\ (fst (inv t) - snd (inv t)) * r <= 1415 / 1000.
Proof.
  intros R A B H. unfold inv. cbn [fst snd]. set (a := fst t) in *. set (b := snd t) in *. clearbody a b. set (n := a * a + b * b) in *. assert (Pn : 0 < n) by nra. assert (Ir := Rinv_0_lt_compat r R). assert (Er : / r * r = 1) by (field; lra).
  assert (M : forall x, 0 <= x -> x * x <= n -> x <= / r * n).
  { intros x X L. apply Rmult_le_reg_l with r; [exact R|]. replace (r * (/ r * n)) with n by (field; lra). apply Rsqr_incr_0_var; [|lra]. unfold Rsqr. replace (r * x * (r * x)) with (r * r * (x * x)) by ring. apply Rmult_le_compat; [apply Rmult_le_pos; lra|apply Rmult_le_pos; lra|exact H|exact L]. }
  assert (Ma := M a A ltac:(unfold n; nra)). assert (Mb := M b B ltac:(unfold n; nra)).
  split; [split; [apply div_ge; lra|apply div_le; lra]|]. split; [split; [apply div_ge; lra|apply div_le; lra]|].
  replace ((a / n - - b / n) * r) with ((a + b) * r / n) by (field; lra). apply div_le; [exact Pn|]. apply Rsqr_incr_0_var; [|lra]. unfold Rsqr.
  assert (W := Rle_0_sqr (a - b)). unfold Rsqr in W. assert (S2 : (a + b) * (a + b) <= 2 * n) by (unfold n; lra). replace ((a + b) * r * ((a + b) * r)) with (r * r * ((a + b) * (a + b))) by ring.
  assert (0 <= n * n) by (apply Rmult_le_pos; lra). apply Rle_trans with (n * (2 * n)); [apply Rmult_le_compat; [apply Rmult_le_pos; lra|apply Rmult_le_pos; lra|exact H|exact S2]|lra].
Qed.
Lemma two8 : 2 ^ 8 = 256. Proof. ring. Qed.
Ltac box := cbn [fst snd]; rewrite two8; match goal with |- context [IZR (?x + 2 ^ ?n)] => let v := eval vm_compute in (x + 2 ^ n)%Z in change (IZR (x + 2 ^ n)) with (IZR v) end.
Lemma good3 a y : 0 <= a -> 0 <= y <= 475 / 100 -> 195 / 1000 * y - 177 / 1000 <= a -> good P3 D3 e32 h5 (a, y).
Proof.
  intros A Y L. destruct (Rle_dec a 8) as [S|S].
  - apply (near P3 D3 e32 h5 ks3 8 11 0 0); [reflexivity|discriminate|apply e32_pos|apply h5_pos|apply cert3n|box; lra|box; lra|].
    unfold ks3, q8. repeat apply Forall_cons; [..|apply Forall_nil]; unfold meets; cbn [fst snd Z.mul Pos.mul Pos.add]; rewrite two8; lra.
  - assert (H : 8 * 8 <= a * a + y * y) by nra. destruct (inv_in (a, y) 8 ltac:(lra) A ltac:(cbn; lra) H) as [V1 [V2 V3]]. apply (far P3 D3 e32 h5 (a, y) (inv (a, y))); [reflexivity|discriminate|apply inv_ok; cbn; nra|].
    apply (near (rev P3) (rev D3) e32 h5 [] 8 6 0 (-64)); [reflexivity|discriminate|apply e32_pos|apply h5_pos|apply cert3f|box; lra|box; lra|constructor].
Qed.
Lemma good2 a y : 0 <= a -> 0 <= y -> 55 / 10 <= y + a -> good P2 D2 e32 h5 (a, y).
Proof.
  intros A Y L. assert (W := Rle_0_sqr (a - y)). unfold Rsqr in W. assert (W2 : 55 / 10 * (55 / 10) <= (y + a) * (y + a)) by (apply Rmult_le_compat; lra). assert (H : 3889 / 1000 * (3889 / 1000) <= a * a + y * y) by lra. destruct (inv_in (a, y) (3889 / 1000) ltac:(lra) A Y H) as [V1 [V2 V3]].
  assert (I : / (3889 / 1000) <= 2572 / 10000). { apply (Rmult_le_reg_r (3889 / 1000)); [lra|]. rewrite Rinv_l; lra. }
  apply (far P2 D2 e32 h5 (a, y) (inv (a, y))); [reflexivity|discriminate|apply inv_ok; cbn; lra|].
  apply (near (rev P2) (rev D2) e32 h5 ks2 8 7 0 (-128)); [reflexivity|discriminate|apply e32_pos|apply h5_pos|apply cert2f|box; lra|box; lra|].
  unfold ks2. repeat apply Forall_cons; [..|apply Forall_nil]; unfold meets; cbn [fst snd Z.mul Pos.mul Pos.add]; rewrite two8; lra.
Qed.
Lemma good1 a y : 0 <= a -> 0 <= y -> 15 <= y + a -> good P1 D1 e32 h5 (a, y).
Proof.
  intros A Y L. assert (W := Rle_0_sqr (a - y)). unfold Rsqr in W. assert (W2 : 15 * (15) <= (y + a) * (y + a)) by (apply Rmult_le_compat; lra). assert (H : 106 / 10 * (106 / 10) <= a * a + y * y) by lra. destruct (inv_in (a, y) (106 / 10) ltac:(lra) A Y H) as [V1 [V2 V3]].
  assert (I : / (106 / 10) <= 944 / 10000). { apply (Rmult_le_reg_r (106 / 10)); [lra|]. rewrite Rinv_l; lra. }
  apply (far P1 D1 e32 h5 (a, y) (inv (a, y))); [reflexivity|discriminate|apply inv_ok; cbn; lra|].
  apply (near (rev P1) (rev D1) e32 h5 ks1 8 5 0 (-32)); [reflexivity|discriminate|apply e32_pos|apply h5_pos|apply cert1f|box; lra|box; lra|].
  unfold ks1. repeat apply Forall_cons; [..|apply Forall_nil]; unfold meets; cbn [fst snd Z.mul Pos.mul Pos.add]; rewrite two8; lra.
Qed.
Lemma good4f a y : 0 <= a <= 75 / 100 -> 8 <= y -> good P4 D4 e2 h5 (a, y).
Proof.
  intros A Y. assert (W : 8 * 8 <= y * y) by (apply Rmult_le_compat; lra). assert (W2 : 0 <= a * a) by (apply Rmult_le_pos; lra). assert (H : 8 * 8 <= a * a + y * y) by lra. destruct (inv_in (a, y) 8 ltac:(lra) ltac:(cbn; lra) ltac:(cbn; lra) H) as [V1 [V2 V3]].
  assert (V4 : fst (inv (a, y)) <= 1 / 64) by (unfold inv; cbn [fst snd]; apply div_le; lra).
  apply (far P4 D4 e2 h5 (a, y) (inv (a, y))); [reflexivity|discriminate|apply inv_ok; cbn; lra|].
  apply (near (rev P4) (rev D4) e2 h5 ks4f 8 6 0 (-64)); [reflexivity|discriminate|apply e2_pos|apply h5_pos|apply cert4f|box; lra|box; lra|].
  unfold ks4f, q8. repeat apply Forall_cons; [..|apply Forall_nil]; unfold meets; cbn [fst snd Z.mul Pos.mul Pos.add]; rewrite two8; lra.
Qed.
Lemma two6 : 2 ^ 6 = 64. Proof. ring. Qed.
Ltac box6 := cbn [fst snd]; rewrite two6; match goal with |- context [IZR (?x + 2 ^ ?n)] => let v := eval vm_compute in (x + 2 ^ n)%Z in change (IZR (x + 2 ^ n)) with (IZR v) end.
Lemma good4a y : 0 <= y -> good P4 D4 e2 h5 (0, y).
Proof.
  intros Y. destruct (Rle_dec y 8) as [S|S]; [|apply good4f; lra].
  change (good (spread PE4) (spread DE4) e2 h5 (0, y)). apply (near2 PE4 DE4 e2 h5 ks4a 6 9 0 0); [reflexivity|discriminate|apply e2_pos|apply h5_pos|apply cert4a|box6; lra|box6; lra|].
  unfold ks4a. repeat apply Forall_cons; [..|apply Forall_nil]; unfold meets; cbn [fst snd Z.mul Pos.mul Pos.add]; rewrite two6; lra.
Qed.
Lemma good4 a y : 0 <= a <= 75 / 100 -> a <= 195 / 1000 * y - 176 / 1000 -> good P4 D4 e2 h5 (a, y).
Proof.
  intros A L. destruct (Rle_dec y 8) as [S|S]; [|apply good4f; lra].
  change (good (spread PE4) (spread DE4) e2 h5 (a, y)). apply (near2 PE4 DE4 e2 h5 ks4 6 9 0 0); [reflexivity|discriminate|apply e2_pos|apply h5_pos|apply cert4n|box6; lra|box6; lra|].
  unfold ks4, q6. repeat apply Forall_cons; [..|apply Forall_nil]; unfold meets; cbn [fst snd Z.mul Pos.mul Pos.add]; rewrite two6; lra.
Qed.

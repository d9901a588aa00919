(** Properties of projections of resolution matrices (C34), the plotted ellipses (C35) and the widths (C58). *)
From Coq Require Import String List ZArith Reals Lra Lia Bool Psatz.
From Coquelicot Require Import Coquelicot.
From Verif Require Import Base MatModel NumBounds Gauss.
Import ListNotations.
Local Open Scope R_scope.

(** ** Quadratic forms in [n] variables *)
Fixpoint sumn (n : nat) (f : nat -> R) : R := match n with O => 0 | S n => sumn n f + f n end.
Definition quad (n : nat) (m : mat) (x : nat -> R) : R := sumn n (fun i => sumn n (fun j => m i j * x i * x j)).
Definition posdef (n : nat) (m : mat) : Prop := forall x, (exists i, (i < n)%nat /\ x i <> 0) -> 0 < quad n m x.
Definition sym (n : nat) (m : mat) : Prop := forall i j, (i < n)%nat -> (j < n)%nat -> m i j = m j i.
(** [x] with [t] inserted as coordinate [k]. *)
Definition insert (k : nat) (t : R) (x : nat -> R) : nat -> R := fun i => if Nat.ltb i k then x i else if Nat.eqb i k then t else x (i - 1)%nat.

Lemma sumn_ext n f g : (forall i, (i < n)%nat -> f i = g i) -> sumn n f = sumn n g.
Proof. induction n as [|n IH]; intros E; cbn [sumn]; auto. rewrite E by lia. rewrite IH; auto. Qed.
Lemma sumn_plus n f g : sumn n (fun i => f i + g i) = sumn n f + sumn n g.
Proof. induction n as [|n IH]; cbn [sumn]; [ring|]. rewrite IH. ring. Qed.
Lemma sumn_scal n c f : sumn n (fun i => c * f i) = c * sumn n f.
Proof. induction n as [|n IH]; cbn [sumn]; [ring|]. rewrite IH. ring. Qed.
Lemma sumn_zero n f : (forall i, (i < n)%nat -> f i = 0) -> sumn n f = 0.
Proof. induction n as [|n IH]; intros E; cbn [sumn]; auto. rewrite E by lia. rewrite IH; auto. ring. Qed.
Lemma skip_lt k i : (i < k)%nat -> skip k i = i.
Proof. intros L. unfold skip. apply Nat.ltb_lt in L. now rewrite L. Qed.
Lemma skip_ge k i : (k <= i)%nat -> skip k i = S i.
Proof. intros L. unfold skip. apply Nat.ltb_ge in L. now rewrite L. Qed.
Lemma skip_ne k i : skip k i <> k.
Proof. destruct (Nat.lt_ge_cases i k); [rewrite skip_lt|rewrite skip_ge]; lia. Qed.
Lemma skip_bound k i n : (i < n)%nat -> (k <= n)%nat -> (skip k i < S n)%nat.
Proof. intros L K. destruct (Nat.lt_ge_cases i k); [rewrite skip_lt|rewrite skip_ge]; lia. Qed.
Lemma sumn_split n k f : (k <= n)%nat -> sumn (S n) f = f k + sumn n (fun i => f (skip k i)).
Proof.
  revert k. induction n as [|n IH]; intros k L.
  - replace k with 0%nat by lia. cbn [sumn]. ring.
  - change (sumn (S (S n)) f) with (sumn (S n) f + f (S n)). destruct (Nat.eq_dec k (S n)) as [->|N].
    + cbn [sumn]. rewrite (skip_lt (S n) n) by lia. rewrite (sumn_ext n (fun i => f (skip (S n) i)) f) by (intros; rewrite skip_lt by lia; reflexivity). ring.
    + rewrite (IH k) by lia. cbn [sumn]. rewrite (skip_ge k n) by lia. ring.
Qed.
Lemma insert_at k t x : insert k t x k = t.
Proof. unfold insert. now rewrite Nat.ltb_irrefl, Nat.eqb_refl. Qed.
Lemma insert_skip k t x i : insert k t x (skip k i) = x i.
Proof.
  unfold insert. destruct (Nat.lt_ge_cases i k) as [L|L].
  - rewrite skip_lt by auto. apply Nat.ltb_lt in L. now rewrite L.
  - rewrite skip_ge by auto. assert (H : Nat.ltb (S i) k = false) by (apply Nat.ltb_ge; lia). rewrite H. assert (H' : Nat.eqb (S i) k = false) by (apply Nat.eqb_neq; lia). rewrite H'. f_equal. lia.
Qed.
Lemma quad_ext n m m' x x' : (forall i j, (i < n)%nat -> (j < n)%nat -> m i j = m' i j) -> (forall i, (i < n)%nat -> x i = x' i) -> quad n m x = quad n m' x'.
Proof. intros E F. unfold quad. apply sumn_ext. intros i Li. apply sumn_ext. intros j Lj. now rewrite E, !F by auto. Qed.
(** The form split at coordinate [k]. *)
Lemma quad_split n k m x t : (k <= n)%nat ->
  quad (S n) m (insert k t x) = m k k * t ^ 2 + t * sumn n (fun i => (m (skip k i) k + m k (skip k i)) * x i) + quad n (fun i j => m (skip k i) (skip k j)) x.
Proof.
  intros L. unfold quad at 1. rewrite (sumn_split n k) by auto. rewrite (sumn_split n k) by auto. rewrite insert_at.
  rewrite (sumn_ext n (fun i => m k (skip k i) * t * insert k t x (skip k i)) (fun i => t * (m k (skip k i) * x i))) by (intros; rewrite insert_skip; ring).
  rewrite (sumn_ext n (fun i => sumn (S n) _) (fun i => t * (m (skip k i) k * x i) + sumn n (fun j => m (skip k i) (skip k j) * x i * x j))).
  2:{ intros i Li. rewrite (sumn_split n k) by auto. rewrite insert_at, insert_skip. apply f_equal2; [ring|]. apply sumn_ext. intros j Lj. now rewrite insert_skip. }
  rewrite sumn_plus, !sumn_scal. fold (quad n (fun i j => m (skip k i) (skip k j)) x).
  rewrite (sumn_ext n (fun i => (m (skip k i) k + m k (skip k i)) * x i) (fun i => m (skip k i) k * x i + m k (skip k i) * x i)) by (intros; ring). rewrite sumn_plus. ring.
Qed.
Lemma sumn_prod n (b : nat -> R) : sumn n (fun i => sumn n (fun j => b i * b j)) = sumn n b ^ 2.
Proof.
  rewrite (sumn_ext n _ (fun i => sumn n b * b i)) by (intros; rewrite sumn_scal; ring). rewrite sumn_scal. ring.
Qed.
Lemma project_quad n k r0 m r p x : project k r0 m = Some (r, p) ->
  quad n p x = quad n (fun i j => m (skip k i) (skip k j)) x - (sumn n (fun i => (m (skip k i) k + m k (skip k i)) * x i)) ^ 2 / (4 * m k k) /\ 0 < m k k /\ r = sqrt (2 * PI / m k k) * r0.
Proof.
  unfold project. destruct (Rlt_dec 0 (m k k)) as [P|]; [|discriminate]. intros H. injection H as <- <-. split; auto.
  unfold quad. rewrite <- sumn_prod. rewrite (sumn_ext n (fun i => sumn n (fun j => (_ - _) * _ * _))
    (fun i => sumn n (fun j => m (skip k i) (skip k j) * x i * x j) + (- / (4 * m k k)) * sumn n (fun j => ((m (skip k i) k + m k (skip k i)) * x i) * ((m (skip k j) k + m k (skip k j)) * x j)))).
  - rewrite sumn_plus, sumn_scal. field. lra.
  - intros i _. rewrite <- sumn_scal, <- sumn_plus. apply sumn_ext. intros j _. field. lra.
Qed.

(** ** C34 *)
Lemma posdef_diag n m k : posdef n m -> (k < n)%nat -> 0 < m k k.
Proof.
  intros P L. set (x := fun i => if Nat.eqb i k then 1 else 0). assert (Q : 0 < quad n m x) by (apply P; exists k; split; auto; unfold x; rewrite Nat.eqb_refl; lra).
  destruct n as [|n]; [lia|]. assert (E : quad (S n) m x = quad (S n) m (insert k 1 (fun _ => 0))).
  { apply quad_ext; auto. intros i _. unfold x, insert. destruct (Nat.ltb i k) eqn:A; [apply Nat.ltb_lt in A; destruct (Nat.eqb_spec i k); [lia|reflexivity]|]. destruct (Nat.eqb i k); reflexivity. }
  rewrite E, quad_split in Q by lia. unfold quad in Q. rewrite !sumn_zero in Q by (intros; try rewrite sumn_zero by (intros; ring); ring). lra.
Qed.
(** C34.  Completing the square: the original form is the projected one plus a square in the removed coordinate. *)
Theorem C34_form : forall n k r0 m r p, (k <= n)%nat -> project k r0 m = Some (r, p) -> forall x, exists s, forall t,
  quad (S n) m (insert k t x) = quad n p x + m k k * (t + s) ^ 2.
Proof.
  intros n k r0 m r p L H x. destruct (project_quad n k r0 m r p x H) as (E & P & _). set (b := sumn n (fun i => (m (skip k i) k + m k (skip k i)) * x i)) in *.
  exists (b / (2 * m k k)). intros t. rewrite quad_split by auto. fold b. rewrite E. field. lra.
Qed.
Print Assumptions C34_form.
(** C34.  Projecting is defined for every positive definite matrix; the result is positive definite and symmetric,
    and its form is the minimum of the original one over the removed coordinate, attained exactly once. *)
Theorem C34_minimum : forall n k r0 m, (k <= n)%nat -> posdef (S n) m -> exists r p, project k r0 m = Some (r, p) /\ posdef n p /\ (sym (S n) m -> sym n p) /\
  forall x, (forall t, quad n p x <= quad (S n) m (insert k t x)) /\ exists! t, quad (S n) m (insert k t x) = quad n p x.
Proof.
  intros n k r0 m L P. assert (D := posdef_diag _ _ k P ltac:(lia)). assert (E : exists r p, project k r0 m = Some (r, p)) by (unfold project; destruct (Rlt_dec 0 (m k k)); [eauto|contradiction]).
  destruct E as (r & p & E). exists r, p. split; auto. split; [|split].
  - intros x (i & Li & Ni). destruct (C34_form n k r0 m r p L E x) as (s & F). specialize (F (- s)). replace (m k k * (- s + s) ^ 2) with 0 in F by ring. rewrite Rplus_0_r in F. rewrite <- F. apply P.
    exists (skip k i). split; [apply skip_bound; lia|]. now rewrite insert_skip.
  - intros Sy i j Li Lj. unfold project in E. destruct (Rlt_dec 0 (m k k)); [|discriminate]. injection E as _ <-. rewrite (Sy (skip k i) (skip k j)) by (apply skip_bound; lia). ring.
  - intros x. destruct (C34_form n k r0 m r p L E x) as (s & F). split.
    + intros t. rewrite F. assert (0 <= m k k * (t + s) ^ 2) by (apply Rmult_le_pos; [lra|apply pow2_ge_0]). lra.
    + exists (- s). split; [rewrite F; ring|]. intros t Ht. rewrite F in Ht. assert (Z : m k k * (t + s) ^ 2 = 0) by lra. apply Rmult_integral in Z. destruct Z as [Z|Z]; [lra|]. assert (t + s = 0) by (destruct (Req_dec (t + s) 0); auto; exfalso; apply (pow_nonzero (t + s) 2); auto). lra.
Qed.
Print Assumptions C34_minimum.
(** C34.  Projecting integrates the resolution Gaussian over the removed coordinate. *)
Theorem C34_integral : forall n k r0 m r p, (k <= n)%nat -> project k r0 m = Some (r, p) -> forall x,
  is_lim (fun T => RInt (fun t => r0 * exp (- / 2 * quad (S n) m (insert k t x))) (- T) T) p_infty (r * exp (- / 2 * quad n p x)).
Proof.
  intros n k r0 m r p L H x. destruct (C34_form n k r0 m r p L H x) as (s & F). destruct (project_quad n k r0 m r p x H) as (_ & P & ->).
  apply (is_lim_ext (fun T => RInt (fun t => r0 * exp (- / 2 * (quad n p x + m k k * (t + s) ^ 2))) (- T) T)); [|now apply gauss_integral].
  intros T. apply RInt_ext. intros t _. now rewrite F.
Qed.
Print Assumptions C34_integral.
(** C34.  The order in which two coordinates are projected out does not matter, for the matrix and the prefactor. *)
Theorem C34_order : forall n j k r0 m, (j < k)%nat -> (k < n)%nat -> posdef n m -> exists rk pk rj pj r p p',
  project k r0 m = Some (rk, pk) /\ project j rk pk = Some (r, p) /\ project j r0 m = Some (rj, pj) /\ project (k - 1) rj pj = Some (r, p') /\
  forall a b, (a < n - 2)%nat -> (b < n - 2)%nat -> p a b = p' a b.
Proof.
  intros n j k r0 m Ljk Lk P. destruct n as [|[|n]]; try lia.
  destruct (C34_minimum (S n) k r0 m ltac:(lia) P) as (rk & pk & Ek & Pk & _). destruct (C34_minimum (S n) j r0 m ltac:(lia) P) as (rj & pj & Ej & Pj & _).
  destruct (C34_minimum n j rk pk ltac:(lia) Pk) as (r & p & E & _). destruct (C34_minimum n (k - 1) rj pj ltac:(lia) Pj) as (r' & p' & E' & _).
  assert (Dk := posdef_diag _ _ k P ltac:(lia)). assert (Dj := posdef_diag _ _ j P ltac:(lia)). assert (Dkj := posdef_diag _ _ j Pk ltac:(lia)). assert (Djk := posdef_diag _ _ (k - 1) Pj ltac:(lia)).
  exists rk, pk, rj, pj, r, p, p'. split; auto. split; auto. split; auto.
  assert (Sj : skip k j = j) by (apply skip_lt; lia). assert (Sk : skip j (k - 1) = k) by (rewrite skip_ge; lia).
  assert (Sc : forall i, skip k (skip j i) = skip j (skip (k - 1) i)).
  { intros i. destruct (Nat.lt_ge_cases i j) as [A|A].
    - rewrite (skip_lt j i), (skip_lt (k - 1) i), (skip_lt k i), (skip_lt j i) by lia. reflexivity.
    - rewrite (skip_ge j i) by lia. destruct (Nat.lt_ge_cases i (k - 1)) as [B|B].
      + rewrite (skip_lt (k - 1) i), (skip_lt k (S i)), (skip_ge j i) by lia. reflexivity.
      + rewrite (skip_ge (k - 1) i), (skip_ge k (S i)), (skip_ge j (S i)) by lia. reflexivity. }
  assert (Vk : forall i l, pk i l = m (skip k i) (skip k l) - 1 / (4 * m k k) * ((m (skip k i) k + m k (skip k i)) * (m (skip k l) k + m k (skip k l)))).
  { unfold project in Ek. destruct (Rlt_dec 0 (m k k)); [|discriminate]. injection Ek as _ <-. reflexivity. }
  assert (Vj : forall i l, pj i l = m (skip j i) (skip j l) - 1 / (4 * m j j) * ((m (skip j i) j + m j (skip j i)) * (m (skip j l) j + m j (skip j l)))).
  { unfold project in Ej. destruct (Rlt_dec 0 (m j j)); [|discriminate]. injection Ej as _ <-. reflexivity. }
  set (u := m j k + m k j).
  assert (Akj : pk j j = m j j - u ^ 2 / (4 * m k k)) by (rewrite Vk, Sj; unfold u; field; lra).
  assert (Ajk : pj (k - 1)%nat (k - 1)%nat = m k k - u ^ 2 / (4 * m j j)) by (rewrite Vj, Sk; unfold u; field; lra).
  assert (Dd : 0 < 4 * m j j * m k k - u ^ 2).
  { rewrite Akj in Dkj. apply (Rmult_lt_compat_r (4 * m k k)) in Dkj; [|lra]. replace ((m j j - u ^ 2 / (4 * m k k)) * (4 * m k k)) with (4 * m j j * m k k - u ^ 2) in Dkj by (field; lra). lra. }
  assert (Rr : r = r').
  { destruct (project_quad 0 k r0 m rk pk (fun _ => 0) Ek) as (_ & _ & Hk). destruct (project_quad 0 j r0 m rj pj (fun _ => 0) Ej) as (_ & _ & Hj).
    destruct (project_quad 0 j rk pk r p (fun _ => 0) E) as (_ & _ & Hr). destruct (project_quad 0 _ rj pj r' p' (fun _ => 0) E') as (_ & _ & Hr').
    rewrite Hr, Hr', Hk, Hj. rewrite <- !Rmult_assoc. f_equal. assert (TP : 0 < 2 * PI) by (assert (X := PI_RGT_0); lra).
    rewrite <- !sqrt_mult by (apply Rlt_le, Rdiv_lt_0_compat; auto). f_equal. rewrite Akj, Ajk. field. repeat split; try lra; rewrite ?Rmult_1_r; lra. }
  split; [rewrite Rr; exact E'|]. intros a b _ _. unfold project in E, E'. destruct (Rlt_dec 0 (pk j j)); [|discriminate]. destruct (Rlt_dec 0 (pj (k - 1)%nat (k - 1)%nat)); [|discriminate].
  injection E as _ <-. injection E' as _ <-. rewrite Akj, Ajk, !Vk, !Vj, !Sj, !Sk, !Sc.
  set (ab := m (skip j (skip (k - 1) a)) (skip j (skip (k - 1) b))). set (aj := m (skip j (skip (k - 1) a)) j). set (ja := m j (skip j (skip (k - 1) a))). set (bj := m (skip j (skip (k - 1) b)) j). set (jb := m j (skip j (skip (k - 1) b))).
  set (ak := m (skip j (skip (k - 1) a)) k). set (ka := m k (skip j (skip (k - 1) a))). set (bk := m (skip j (skip (k - 1) b)) k). set (kb := m k (skip j (skip (k - 1) b))).
  unfold u in *. field. repeat split; try lra; rewrite ?Rmult_1_r; lra.
Qed.
Print Assumptions C34_order.
(** A positive definite matrix with correlations. *)
Definition ex3 : mat := fun i j => if Nat.eqb i j then 2 else 1.
Lemma ex3_posdef : posdef 3 ex3.
Proof.
  intros x (i & Li & Ni). unfold quad, ex3. cbn [sumn Nat.eqb].
  assert (X : x 0%nat * x 0%nat + x 1%nat * x 1%nat + x 2%nat * x 2%nat > 0). { destruct i as [|[|[|i]]]; try lia; nra. }
  assert (Y := pow2_ge_0 (x 0%nat + x 1%nat + x 2%nat)). cbn [pow] in Y. lra.
Qed.
Example C34_ex : posdef 3 ex3 /\ sym 3 ex3 /\ ex3 0%nat 1%nat <> 0 /\ exists r p, project 1 5 ex3 = Some (r, p) /\ p 0%nat 0%nat = 3 / 2.
Proof.
  split; [apply ex3_posdef|]. split; [intros i j _ _; unfold ex3; rewrite Nat.eqb_sym; reflexivity|]. split; [unfold ex3; cbn; lra|]. unfold project, ex3. cbn [Nat.eqb]. destruct (Rlt_dec 0 2); [|lra]. eexists _, _. split; [reflexivity|]. cbn. lra.
Qed.

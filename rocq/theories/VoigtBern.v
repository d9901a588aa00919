(** Polynomials with integer coefficients that are not negative between 0 and 1, by their Bernstein coefficients.  Used by VoigtProps.v. *)
From Coq Require Import List ZArith Reals Lra Lia.
Import ListNotations.
Local Open Scope R_scope.

Fixpoint zev (l : list Z) (x : R) : R := match l with [] => 0 | a :: l => IZR a + x * zev l x end.
Fixpoint ladd (a b : list Z) : list Z := match a, b with [], _ => b | _, [] => a | x :: a, y :: b => (x + y)%Z :: ladd a b end.
Definition lsc (k : Z) (a : list Z) : list Z := map (Z.mul k) a.
Fixpoint lmul (a b : list Z) : list Z := match a with [] => [] | x :: a => ladd (lsc x b) (0%Z :: lmul a b) end.
Lemma ladd_ok a : forall b x, zev (ladd a b) x = zev a x + zev b x.
Proof. induction a as [|u a IH]; intros [|v b] x; cbn [ladd zev]; try ring. rewrite IH, plus_IZR. ring. Qed.
Lemma lsc_ok k a x : zev (lsc k a) x = IZR k * zev a x.
Proof. induction a as [|u a IH]; cbn [lsc map zev]; [ring|]. fold (lsc k a). rewrite IH, mult_IZR. ring. Qed.
Lemma lmul_ok a b x : zev (lmul a b) x = zev a x * zev b x.
Proof. induction a as [|u a IH]; cbn [lmul zev]; [ring|]. rewrite ladd_ok, lsc_ok. cbn [zev]. rewrite IH. ring. Qed.

(** x = (m / k) y *)
Fixpoint stretch (m k : Z) (l : list Z) : list Z := match l with [] => [] | a :: l => (a * k ^ Z.of_nat (length l))%Z :: lsc m (stretch m k l) end.
Lemma stretch_ok m k l y : (0 < k)%Z -> IZR k * zev (stretch m k l) y = IZR k ^ length l * zev l (IZR m / IZR k * y).
Proof.
  intros K. assert (Pk : 0 < IZR k) by (apply IZR_lt; exact K). induction l as [|a l IH]; [cbn [stretch zev]; ring|]. cbn [stretch zev length pow]. rewrite lsc_ok, mult_IZR, <- pow_IZR.
  replace (IZR k * (IZR a * IZR k ^ length l + y * (IZR m * zev (stretch m k l) y))) with (IZR k * IZR a * IZR k ^ length l + y * IZR m * (IZR k * zev (stretch m k l) y)) by ring. rewrite IH. field. lra.
Qed.

Lemma ladd_length a : forall b, length a = length b -> length (ladd a b) = length b.
Proof. induction a as [|u a IH]; intros [|v b] H; try discriminate; auto; cbn [ladd length] in *. rewrite IH; lia. Qed.
(** The form of degree (length l - 1) in y and z. *)
Fixpoint form (l : list Z) (y z : R) : R := match l with [] => 0 | a :: l => IZR a * z ^ length l + y * form l y z end.
Lemma form_add a : forall b y z, length a = length b -> form (ladd a b) y z = form a y z + form b y z.
Proof.
  induction a as [|u a IH]; intros [|v b] y z H; try discriminate; [cbn [ladd form]; ring|]. cbn [length] in H. cbn [ladd form]. rewrite IH, ladd_length, plus_IZR by lia. replace (length a) with (length b) by lia. ring.
Qed.
Lemma form_sc k a y z : form (lsc k a) y z = IZR k * form a y z.
Proof. induction a as [|u a IH]; cbn [lsc map form]; [ring|]. fold (lsc k a). rewrite IH, mult_IZR. unfold lsc. rewrite map_length. ring. Qed.
Lemma form_last a y z : form (a ++ [0%Z]) y z = z * form a y z.
Proof. induction a as [|u a IH]; cbn [app form length]; [ring|]. rewrite IH, app_length. cbn [length]. rewrite Nat.add_1_r. cbn [pow]. ring. Qed.
(** (y + z)^n *)
Fixpoint row (n : nat) : list Z := match n with O => [1%Z] | S n => ladd (row n ++ [0%Z]) (0%Z :: row n) end.
Lemma row_length n : length (row n) = S n.
Proof. induction n as [|n IH]; [reflexivity|]. cbn [row]. rewrite ladd_length; cbn [length]; rewrite ?app_length; cbn [length]; lia. Qed.
Lemma row_ok n y z : form (row n) y z = (y + z) ^ n.
Proof.
  induction n as [|n IH]; [cbn [row form length pow]; ring|]. cbn [row]. rewrite form_add by (cbn [length]; rewrite app_length; cbn [length]; lia). rewrite form_last. cbn [form]. rewrite IH. cbn [pow]. ring.
Qed.
Fixpoint bern (l : list Z) : list Z := match l with [] => [] | a :: l => ladd (lsc a (row (length l))) (0%Z :: bern l) end.
Lemma bern_length l : length (bern l) = length l.
Proof. induction l as [|a l IH]; [reflexivity|]. cbn [bern]. rewrite ladd_length; cbn [length]; rewrite ?IH; auto. unfold lsc. rewrite map_length, row_length. reflexivity. Qed.
Lemma bern_ok l y z : y + z = 1 -> form (bern l) y z = zev l y.
Proof.
  intros E. induction l as [|a l IH]; [reflexivity|]. cbn [bern zev]. rewrite form_add by (cbn [length]; rewrite bern_length; unfold lsc; rewrite map_length, row_length; reflexivity).
  rewrite form_sc, row_ok, E, pow1. cbn [form]. rewrite IH. ring.
Qed.
Lemma form_pos l y z : 0 <= y -> 0 <= z -> forallb (Z.leb 0) l = true -> 0 <= form l y z.
Proof.
  intros Y Z. induction l as [|a l IH]; cbn [forallb form]; [lra|]. intros H. apply andb_prop in H as [A B]. apply Z.leb_le, IZR_le in A. apply Rplus_le_le_0_compat; apply Rmult_le_pos; auto. apply pow_le, Z.
Qed.
(** Not negative up to m / k. *)
Lemma zev_pos m k l x : (0 < m)%Z -> (0 < k)%Z -> forallb (Z.leb 0) (bern (stretch m k l)) = true -> 0 <= x <= IZR m / IZR k -> 0 <= zev l x.
Proof.
  intros M K H [X0 X1]. apply IZR_lt in M as Pm. apply IZR_lt in K as Pk. set (y := x / (IZR m / IZR k)). assert (Pq : 0 < IZR m / IZR k) by (apply Rdiv_lt_0_compat; assumption).
  assert (Y : IZR m / IZR k * y = x) by (unfold y; field; lra). assert (Y0 : 0 <= y) by (apply Rmult_le_reg_l with (IZR m / IZR k); [exact Pq|lra]). assert (Y1 : y <= 1) by (apply Rmult_le_reg_l with (IZR m / IZR k); [exact Pq|lra]).
  assert (F := form_pos (bern (stretch m k l)) y (1 - y) Y0 ltac:(lra) H). rewrite bern_ok in F by ring. assert (S := stretch_ok m k l y K). rewrite Y in S. assert (P := pow_lt (IZR k) (length l) Pk).
  apply Rmult_le_reg_l with (IZR k ^ length l); [exact P|]. rewrite <- S, Rmult_0_r. apply Rmult_le_pos; lra.
Qed.

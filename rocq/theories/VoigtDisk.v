(** A bound of |P| / |D|^2 over a region of the complex plane for polynomials with integer coefficients, by a cover with discs on
    each of which the polynomials are expanded around the centre.  Used by VoigtAcc.v. *)
From Coq Require Import Reals.
From Coquelicot Require Import Coquelicot.
From Coq Require Import List ZArith Lra Lia Psatz Bool.
Import ListNotations.
Local Open Scope R_scope.

Definition zi := (Z * Z)%type.
Definition zadd (z w : zi) : zi := (fst z + fst w, snd z + snd w)%Z.
Definition zmul (z w : zi) : zi := (fst z * fst w - snd z * snd w, fst z * snd w + snd z * fst w)%Z.
Definition zc (z : zi) : C := (IZR (fst z), IZR (snd z)).
Lemma c_eq (z w : C) : fst z = fst w -> snd z = snd w -> z = w.
Proof. destruct z, w. simpl. intros -> ->. reflexivity. Qed.
Lemma zc_add z w : zc (zadd z w) = (zc z + zc w)%C. Proof. apply c_eq; simpl; apply plus_IZR. Qed.
Lemma zc_mul z w : zc (zmul z w) = (zc z * zc w)%C.
Proof. apply c_eq; simpl; [rewrite minus_IZR|rewrite plus_IZR]; rewrite !mult_IZR; reflexivity. Qed.

Fixpoint ceval (l : list C) (t : C) : C := match l with [] => 0%C | a :: l => (a + t * ceval l t)%C end.
Definition zr (z : Z) : C := RtoC (IZR z).
Definition zeval (l : list Z) (t : C) : C := ceval (map zr l) t.
Lemma zeval_cons a l t : zeval (a :: l) t = (zr a + t * zeval l t)%C. Proof. reflexivity. Qed.
Lemma zeval_nil t : zeval [] t = 0%C. Proof. reflexivity. Qed.

(** The coefficients around a centre. *)
Fixpoint tstep (c k : zi) (r : list zi) : list zi := match r with [] => [k] | x :: r => zadd k (zmul c x) :: tstep c x r end.
Fixpoint taylor (c : zi) (l : list Z) : list zi := match l with [] => [] | a :: l => tstep c (a, 0%Z) (taylor c l) end.
Lemma tstep_ok c r h : forall k, ceval (map zc (tstep c k r)) h = (zc k + (zc c + h) * ceval (map zc r) h)%C.
Proof.
  induction r as [|x r IH]; intros k; cbn [tstep map ceval]; [ring|]. rewrite IH, zc_add, zc_mul. ring.
Qed.
Lemma taylor_ok c l h : ceval (map zc (taylor c l)) h = zeval l (zc c + h)%C.
Proof. induction l as [|a l IH]; [reflexivity|]. cbn [taylor]. rewrite tstep_ok, IH, zeval_cons. reflexivity. Qed.

(** Bounds of 64 |z| on either side by linear forms. *)
Definition lo (z : zi) : Z :=
  let a := Z.abs (fst z) in let b := Z.abs (snd z) in let M := Z.max a b in let m := Z.min a b in
  Z.max (Z.max (64 * M) (62 * M + 15 * m)) (Z.max (56 * M + 30 * m) (46 * M + 44 * m)).
Definition up (z : zi) : Z :=
  let a := Z.abs (fst z) in let b := Z.abs (snd z) in let M := Z.max a b in let m := Z.min a b in
  Z.max (64 * M + 13 * m) (55 * M + 37 * m).
Lemma cmod_zc z : Cmod (zc z) = sqrt (IZR (fst z * fst z + snd z * snd z)).
Proof. unfold Cmod, zc. cbn [fst snd]. f_equal. rewrite plus_IZR, !mult_IZR. ring. Qed.
Lemma cmod_mM z : let a := Z.abs (fst z) in let b := Z.abs (snd z) in
  (Cmod (zc z)) ^ 2 = IZR (Z.max a b) ^ 2 + IZR (Z.min a b) ^ 2 /\ (0 <= Z.min a b <= Z.max a b)%Z.
Proof.
  cbv zeta. split; [|lia]. rewrite cmod_zc, pow2_sqrt by (apply IZR_le; nia). rewrite !(pow_IZR _ 2), <- plus_IZR. f_equal. cbn [Z.of_nat Pos.of_succ_nat Pos.succ]. rewrite !Z.pow_2_r.
  rewrite <- (Z.abs_square (fst z)), <- (Z.abs_square (snd z)). destruct (Z.max_spec (Z.abs (fst z)) (Z.abs (snd z))) as [[L ->]|[L ->]], (Z.min_spec (Z.abs (fst z)) (Z.abs (snd z))) as [[K ->]|[K ->]]; nia.
Qed.
Lemma lo_ok z : IZR (lo z) <= 64 * Cmod (zc z).
Proof.
  destruct (cmod_mM z) as [E B]. unfold lo. cbv zeta in *. set (M := Z.max _ _) in *. set (m := Z.min _ _) in *. clearbody M m. destruct B as [B0 B1]. apply IZR_le in B0, B1. assert (G := Cmod_ge_0 (zc z)). set (r := Cmod (zc z)) in *. clearbody r.
  assert (A : forall x y, 0 <= x -> 0 <= y -> x * x + y * y <= 4096 -> x * IZR M + y * IZR m <= 64 * r).
  { intros x y X Y H. apply Rsqr_incr_0_var; [|lra]. unfold Rsqr. assert (W := Rle_0_sqr (x * IZR m - y * IZR M)). unfold Rsqr in W.
    assert (V : (x * x + y * y) * (IZR M ^ 2 + IZR m ^ 2) <= 4096 * (r ^ 2)) by (rewrite E; apply Rmult_le_compat_r; [|exact H]; assert (Z1 := pow2_ge_0 (IZR M)); assert (Z2 := pow2_ge_0 (IZR m)); lra). lra. }
  repeat apply Z.max_case; rewrite ?plus_IZR, !mult_IZR; [assert (K := A 64 0)|apply A|apply A|apply A]; lra.
Qed.
Lemma up_ok z : 64 * Cmod (zc z) <= IZR (up z).
Proof.
  destruct (cmod_mM z) as [E B]. unfold up. cbv zeta in *. set (M := Z.max _ _) in *. set (m := Z.min _ _) in *. clearbody M m. destruct B as [B0 B1]. apply IZR_le in B0, B1. set (r := Cmod (zc z)) in *. clearbody r.
  set (x := IZR M) in *. set (y := IZR m) in *. assert (U : forall w, 0 <= w -> 4096 * (x ^ 2 + y ^ 2) <= w * w -> 64 * r <= w).
  { intros w W H. apply Rsqr_incr_0_var; [|exact W]. unfold Rsqr. rewrite <- E in H. lra. }
  destruct (Rle_dec (100 * y) (41 * x)) as [L|L].
  - apply Rle_trans with (IZR (64 * M + 13 * m)); [|apply IZR_le; lia]. rewrite plus_IZR, !mult_IZR. fold x y. apply U; nra.
  - apply Rle_trans with (IZR (55 * M + 37 * m)); [|apply IZR_le; lia]. rewrite plus_IZR, !mult_IZR. fold x y. apply U; nra.
Qed.
Fixpoint bound (l : list zi) (r : Z) : Z := match l with [] => 0%Z | z :: l => (up z + r * bound l r)%Z end.
Lemma bound_ok l r h : Cmod h <= IZR r -> 64 * Cmod (ceval (map zc l) h) <= IZR (bound l r).
Proof.
  intros H. assert (H0 := Cmod_ge_0 h). induction l as [|z l IH]; cbn [map ceval bound]; [rewrite Cmod_0; lra|].
  eapply Rle_trans; [apply Rmult_le_compat_l; [lra|apply Cmod_triangle]|]. rewrite Cmod_mult, plus_IZR, mult_IZR, Rmult_plus_distr_l. apply Rplus_le_compat; [apply up_ok|].
  replace (64 * (Cmod h * Cmod (ceval (map zc l) h))) with (Cmod h * (64 * Cmod (ceval (map zc l) h))) by ring. apply Rmult_le_compat; auto. assert (G := Cmod_ge_0 (ceval (map zc l) h)). lra.
Qed.

Definition good (P D : list Z) (en ed : Z) (t : C) : Prop := 0 < Cmod (zeval D t) /\ Cmod (zeval P t) * IZR ed <= IZR en * (Cmod (zeval D t)) ^ 2.
Definition disk_ok (P D : list Z) (en ed : Z) (c : zi) (r : Z) : bool :=
  match taylor c D with
  | [] => false
  | d :: td => let L := (lo d - r * bound td r)%Z in if (0 <? L)%Z then (bound (taylor c P) r * (64 * ed) <=? en * (L * L))%Z else false
  end.
Lemma cmod_sub (x y : C) : Cmod x - Cmod y <= Cmod (x + y)%C.
Proof. assert (T := Cmod_triangle (x + y)%C (- y)%C). rewrite Cmod_opp in T. replace (x + y + - y)%C with x in T by ring. lra. Qed.
Lemma disk_sound P D en ed c r t : (0 <= en)%Z -> (0 <= ed)%Z -> disk_ok P D en ed c r = true -> Cmod (t - zc c)%C <= IZR r -> good P D en ed t.
Proof.
  intros Hen Hed. unfold disk_ok. intros K H. destruct (taylor c D) as [|d td] eqn:ED; [discriminate|]. cbv zeta in K. destruct (0 <? _)%Z eqn:K1; [|discriminate]. apply Z.ltb_lt in K1. apply Z.leb_le in K.
  set (h := (t - zc c)%C) in *. assert (Et : t = (zc c + h)%C) by (unfold h; ring).
  assert (VD := taylor_ok c D h). rewrite ED, <- Et in VD. assert (VP := taylor_ok c P h). rewrite <- Et in VP. unfold good. rewrite <- VD, <- VP. cbn [map ceval].
  assert (BP := bound_ok (taylor c P) r h H). assert (BD := bound_ok td r h H). assert (L0 := lo_ok d). set (L := (lo d - r * bound td r)%Z) in *.
  assert (BL : IZR L <= 64 * Cmod (zc d + h * ceval (map zc td) h)%C).
  { apply Rle_trans with (64 * (Cmod (zc d) - Cmod (h * ceval (map zc td) h)%C)); [|apply Rmult_le_compat_l; [lra|apply cmod_sub]]. unfold L. rewrite minus_IZR, mult_IZR, Cmod_mult.
    assert (Cmod h * (64 * Cmod (ceval (map zc td) h)) <= IZR r * IZR (bound td r)) by (apply Rmult_le_compat; auto; [apply Cmod_ge_0|assert (G := Cmod_ge_0 (ceval (map zc td) h)); lra]). lra. }
  set (dd := Cmod (zc d + h * ceval (map zc td) h)%C) in *. set (pp := Cmod (ceval (map zc (taylor c P)) h)) in *. assert (PL : 0 < IZR L) by (apply IZR_lt; exact K1). split; [lra|].
  apply IZR_le in K. rewrite !mult_IZR in K. apply IZR_le in Hen, Hed. set (e := IZR ed) in *. set (n := IZR en) in *. set (b := IZR (bound (taylor c P) r)) in *. set (l := IZR L) in *. clearbody dd pp e n b l.
  assert (A1 : 64 * pp * (64 * e) <= b * (64 * e)) by (apply Rmult_le_compat_r; lra). assert (A2 : l * l <= 64 * dd * (64 * dd)) by (apply Rmult_le_compat; lra). assert (A3 : n * (l * l) <= n * (64 * dd * (64 * dd))) by (apply Rmult_le_compat_l; lra). lra.
Qed.

(** For polynomials in t^2: the image of a disc is in a disc. *)
Definition square_ok (P D : list Z) (en ed : Z) (c : zi) (r : Z) : bool := disk_ok P D en ed (zmul c c) (r * (2 * (Z.abs (fst c) + Z.abs (snd c)) + r)).
Lemma square_sound P D en ed c r t : (0 <= en)%Z -> (0 <= ed)%Z -> square_ok P D en ed c r = true -> Cmod (t - zc c)%C <= IZR r -> good P D en ed (t * t)%C.
Proof.
  intros Hen Hed K H. apply (disk_sound _ _ _ _ _ _ _ Hen Hed K). rewrite zc_mul. set (h := (t - zc c)%C) in *. replace (t * t - zc c * zc c)%C with (h * (zc c + zc c + h))%C by (unfold h; ring).
  rewrite Cmod_mult, mult_IZR. apply Rmult_le_compat; [apply Cmod_ge_0|apply Cmod_ge_0|exact H|]. eapply Rle_trans; [apply Cmod_triangle|]. rewrite plus_IZR, mult_IZR. apply Rplus_le_compat; [|exact H].
  eapply Rle_trans; [apply Cmod_triangle|]. cut (Cmod (zc c) <= IZR (Z.abs (fst c) + Z.abs (snd c))); [lra|]. rewrite plus_IZR, !abs_IZR. unfold Cmod, zc. cbn [fst snd].
  apply Rsqr_incr_0_var; [|apply Rplus_le_le_0_compat; apply Rabs_pos]. rewrite Rsqr_sqrt by (apply Rplus_le_le_0_compat; apply pow2_ge_0). unfold Rsqr. rewrite <- (pow2_abs (IZR (fst c))), <- (pow2_abs (IZR (snd c))).
  assert (0 <= Rabs (IZR (fst c)) * Rabs (IZR (snd c))) by (apply Rmult_le_pos; apply Rabs_pos). lra.
Qed.

Section Cover.
  Variables (test : zi -> Z -> bool) (G : C -> Prop).
  Hypothesis (sound : forall c r t, test c r = true -> Cmod (t - zc c)%C <= IZR r -> G t).
  (** A linear constraint (al, be, ga): al x + be y <= ga. *)
  Definition cons := (Z * Z * Z)%type.
  Definition meets (k : cons) (t : C) : Prop := let '(al, be, ga) := k in IZR al * fst t + IZR be * snd t <= IZR ga.
  Definition least (al X s : Z) : Z := if (0 <=? al)%Z then (al * X)%Z else (al * (X + s))%Z.
  Definition misses (s X Y : Z) (k : cons) : bool := let '(al, be, ga) := k in (ga <? least al X s + least be Y s)%Z.
  Lemma least_ok al X s x : IZR X <= x <= IZR (X + s) -> IZR (least al X s) <= IZR al * x.
  Proof.
    intros [A B]. unfold least. destruct (0 <=? al)%Z eqn:E.
    - apply Z.leb_le, IZR_le in E. rewrite mult_IZR. apply Rmult_le_compat_l; auto.
    - apply Z.leb_gt, IZR_lt in E. rewrite mult_IZR. nra.
  Qed.
  Variable (ks : list cons).
  Fixpoint cover (j : nat) (X Y : Z) : bool :=
    if existsb (misses (2 ^ Z.of_nat j) X Y) ks then true
    else match j with
    | O => false
    | S j =>
        let s := (2 ^ Z.of_nat j)%Z in
        if test (X + s, Y + s)%Z ((3 * s + 1) / 2) then true
        else if cover j X Y then if cover j (X + s) Y then if cover j X (Y + s) then cover j (X + s) (Y + s) else false else false else false
    end.
  Lemma cover_sound j : forall X Y t, cover j X Y = true -> IZR X <= fst t <= IZR (X + 2 ^ Z.of_nat j) -> IZR Y <= snd t <= IZR (Y + 2 ^ Z.of_nat j) ->
    Forall (fun k => meets k t) ks -> G t.
  Proof.
    assert (M : forall X Y s t, existsb (misses s X Y) ks = true -> IZR X <= fst t <= IZR (X + s) -> IZR Y <= snd t <= IZR (Y + s) -> Forall (fun k => meets k t) ks -> False).
    { intros X Y s t E Hx Hy F. apply existsb_exists in E as [[[al be] ga] [I E]]. rewrite Forall_forall in F. specialize (F _ I). unfold misses in E. apply Z.ltb_lt, IZR_lt in E. rewrite plus_IZR in E. unfold meets in F.
      assert (A := least_ok al X s _ Hx). assert (B := least_ok be Y s _ Hy). lra. }
    induction j as [|j IH]; intros X Y t K Hx Hy F; cbn [cover] in K.
    - destruct existsb eqn:E; [|discriminate]. destruct (M _ _ _ _ E Hx Hy F).
    - destruct existsb eqn:E; [destruct (M _ _ _ _ E Hx Hy F)|].
      set (s := (2 ^ Z.of_nat j)%Z) in *. assert (Es : (2 ^ Z.of_nat (S j) = s + s)%Z) by (unfold s; rewrite Nat2Z.inj_succ, Z.pow_succ_r by lia; lia). rewrite Es in Hx, Hy.
      assert (Ps : (0 < s)%Z) by (unfold s; apply Z.pow_pos_nonneg; lia).
      destruct (test _ _) eqn:KD.
      + apply (sound _ _ t KD). set (r := ((3 * s + 1) / 2)%Z). assert (Hr : (3 * s <= 2 * r)%Z) by (unfold r; assert (W := Z.div_mod (3 * s + 1) 2 ltac:(lia)); assert (W' := Z.mod_pos_bound (3 * s + 1) 2 ltac:(lia)); lia).
        apply IZR_le in Hr. rewrite !mult_IZR in Hr. unfold Cmod. apply Rsqr_incr_0_var; [|apply IZR_lt in Ps; lra]. apply IZR_lt in Ps. rewrite Rsqr_sqrt by (apply Rplus_le_le_0_compat; apply pow2_ge_0). unfold Rsqr. unfold zc. cbn [fst snd Cminus Cplus Copp].
        rewrite !plus_IZR in *. assert (A : Rabs (fst t + - (IZR X + IZR s)) <= IZR s) by (apply Rabs_le; lra). assert (B : Rabs (snd t + - (IZR Y + IZR s)) <= IZR s) by (apply Rabs_le; lra).
        assert (A2 := pow_maj_Rabs _ _ 2 A). assert (B2 := pow_maj_Rabs _ _ 2 B). assert (S9 : 3 * IZR s * (3 * IZR s) <= 2 * IZR r * (2 * IZR r)) by (apply Rmult_le_compat; lra). assert (0 <= IZR s * IZR s) by (apply Rmult_le_pos; lra). simpl in *. lra.
      + destruct (cover j X Y) eqn:K1; [|discriminate]. destruct (cover j (X + s) Y) eqn:K2; [|discriminate]. destruct (cover j X (Y + s)) eqn:K3; [|discriminate].
        rewrite !Z.add_assoc in Hx, Hy.
        destruct (Rle_dec (fst t) (IZR (X + s))) as [Lx|Lx], (Rle_dec (snd t) (IZR (Y + s))) as [Ly|Ly].
        * apply (IH X Y); auto; lra.
        * apply (IH X (Y + s)%Z); auto; lra.
        * apply (IH (X + s)%Z Y); auto; lra.
        * apply (IH (X + s)%Z (Y + s)%Z); auto; lra.
  Qed.
End Cover.

(** * Scaling the plane by q *)
Fixpoint scale (q : Z) (l : list Z) : list Z := match l with [] => [] | a :: l => (a * q ^ Z.of_nat (length l))%Z :: scale q l end.
Lemma zr_mul a b : zr (a * b) = (zr a * zr b)%C. Proof. unfold zr. rewrite mult_IZR. apply RtoC_mult. Qed.
Lemma scale_ok q l t : (zr q * zeval (scale q l) (zr q * t) = zr (q ^ Z.of_nat (length l)) * zeval l t)%C.
Proof.
  induction l as [|a l IH]; [cbn [scale]; rewrite !zeval_nil; ring|]. cbn [scale length]. rewrite !zeval_cons, zr_mul.
  replace (zr q * (zr a * zr (q ^ Z.of_nat (length l)) + zr q * t * zeval (scale q l) (zr q * t)))%C with (zr q * (zr a * zr (q ^ Z.of_nat (length l)) + t * (zr q * zeval (scale q l) (zr q * t))))%C by ring.
  rewrite IH, Nat2Z.inj_succ, Z.pow_succ_r, zr_mul by lia. ring.
Qed.
Lemma cmod_zr z : (0 <= z)%Z -> Cmod (zr z) = IZR z.
Proof. intros H. unfold zr. rewrite Cmod_R. apply Rabs_right, Rle_ge, IZR_le, H. Qed.
Lemma scale_cmod q l t : (0 < q)%Z -> IZR q * Cmod (zeval (scale q l) (zr q * t)%C) = IZR q ^ length l * Cmod (zeval l t).
Proof. intros H. rewrite <- (cmod_zr q) at 1 by lia. rewrite <- Cmod_mult, scale_ok, Cmod_mult. f_equal. rewrite cmod_zr by (apply Z.pow_nonneg; lia). rewrite pow_IZR. reflexivity. Qed.

(** The same with the variable inverted. *)
Lemma zeval_app l1 l2 t : zeval (l1 ++ l2) t = (zeval l1 t + pow_n t (length l1) * zeval l2 t)%C.
Proof.
  induction l1 as [|a l IH]; [cbn [app length pow_n]; rewrite zeval_nil; change (one : C) with (RtoC 1); ring|].
  cbn [app length pow_n]. rewrite !zeval_cons, IH. change (mult t (pow_n t (length l))) with (t * pow_n t (length l))%C. ring.
Qed.
Lemma zeval_rev l t v : (t * v = 1)%C -> zeval (rev l) v = (t * (pow_n v (length l) * zeval l t))%C.
Proof.
  intros H. induction l as [|a l IH]; [cbn [rev length]; rewrite !zeval_nil; ring|].
  cbn [rev length]. rewrite zeval_app, IH, rev_length, !zeval_cons, zeval_nil. set (p := pow_n v (length l)). change (pow_n v (S (length l))) with (v * p)%C.
  replace (t * (v * p * (zr a + t * zeval l t)))%C with (t * v * p * (zr a + t * zeval l t))%C by ring. rewrite H. ring.
Qed.
Lemma cmod_pow_n v n : Cmod (pow_n v n) = Cmod v ^ n.
Proof. induction n as [|n IH]; [cbn [pow_n pow]; change (one : C) with (RtoC 1); apply Cmod_1|]. cbn [pow]. rewrite <- IH, <- Cmod_mult. reflexivity. Qed.

(** * The conclusions *)
Definition covers (q : Z) (P D : list Z) (en ed : Z) := cover (disk_ok (scale q P) (scale q D) en ed).
Lemma unscale (P D : list Z) en ed q t : length P = (2 * length D - 1)%nat -> D <> [] -> (0 < q)%Z -> good (scale q P) (scale q D) en ed (zr q * t)%C -> good P D en ed t.
Proof.
  intros LP ND PZ [G1 G2]. assert (SP := scale_cmod q P t PZ). assert (SD := scale_cmod q D t PZ). assert (Pq : 0 < IZR q) by (apply IZR_lt; exact PZ).
  destruct D as [|d D]; [congruence|]. set (D0 := d :: D) in *. replace (2 * length D0 - 1)%nat with (S (2 * length D)) in LP by (unfold D0; cbn [length]; lia).
  set (a := Cmod (zeval (scale q D0) (zr q * t)%C)) in *. set (b := Cmod (zeval (scale q P) (zr q * t)%C)) in *.
  assert (ED : a = IZR q ^ length D * Cmod (zeval D0 t)). { apply Rmult_eq_reg_l with (IZR q); [|lra]. rewrite SD. unfold D0. cbn [length pow]. ring. }
  assert (EP : b = IZR q ^ (2 * length D) * Cmod (zeval P t)). { apply Rmult_eq_reg_l with (IZR q); [|lra]. rewrite SP, LP, <- tech_pow_Rmult. generalize (IZR q ^ (2 * length D)). intros; ring. }
  set (k := IZR q ^ length D) in *. assert (Pk : 0 < k) by (apply pow_lt; exact Pq). rewrite Nat.mul_comm, pow_mult in EP. fold k in EP.
  split.
  - apply Rmult_lt_reg_l with k; [exact Pk|]. rewrite Rmult_0_r, <- ED. exact G1.
  - apply Rmult_le_reg_l with (k ^ 2); [apply pow_lt; exact Pk|]. rewrite EP, ED in G2. replace (k ^ 2 * (Cmod (zeval P t) * IZR ed)) with (k ^ 2 * Cmod (zeval P t) * IZR ed) by ring. replace (k ^ 2 * (IZR en * Cmod (zeval D0 t) ^ 2)) with (IZR en * (k * Cmod (zeval D0 t)) ^ 2) by ring. exact G2.
Qed.
Lemma near (P D : list Z) en ed ks m j X Y t :
  length P = (2 * length D - 1)%nat -> D <> [] -> (0 <= en)%Z -> (0 <= ed)%Z -> covers (2 ^ Z.of_nat m) P D en ed ks j X Y = true ->
  let q := 2 ^ m in
  IZR X <= q * fst t <= IZR (X + 2 ^ Z.of_nat j) -> IZR Y <= q * snd t <= IZR (Y + 2 ^ Z.of_nat j) ->
  Forall (fun k => meets k (q * fst t, q * snd t)) ks -> good P D en ed t.
Proof.
  intros LP ND Hen Hed K q Hx Hy F. set (Z2 := (2 ^ Z.of_nat m)%Z) in *. assert (PZ : (0 < Z2)%Z) by (unfold Z2; apply Z.pow_pos_nonneg; lia). assert (EZ : IZR Z2 = q) by (unfold Z2, q; rewrite <- pow_IZR; reflexivity).
  assert (ET : (zr Z2 * t)%C = (q * fst t, q * snd t)) by (apply c_eq; unfold zr; simpl; rewrite EZ; ring).
  apply (unscale P D en ed Z2 t LP ND PZ). apply (cover_sound _ _ (fun c r t => disk_sound _ _ _ _ c r t Hen Hed) ks j X Y (zr Z2 * t)%C K); rewrite ET; assumption.
Qed.
(** The even polynomial with these coefficients. *)
Fixpoint spread (l : list Z) : list Z := match l with [] => [] | [a] => [a] | a :: l => a :: 0%Z :: spread l end.
Lemma spread_ok l t : zeval (spread l) t = zeval l (t * t)%C.
Proof.
  induction l as [|a [|b l] IH]; [reflexivity|cbn [spread]; rewrite !zeval_cons, !zeval_nil; ring|]. change (spread (a :: b :: l)) with (a :: 0%Z :: spread (b :: l)). rewrite !zeval_cons, IH, zeval_cons.
  change (zr 0) with (0 : C). ring.
Qed.
Definition squares (q : Z) (P D : list Z) (en ed : Z) := cover (square_ok (scale (q * q) P) (scale (q * q) D) en ed).
Lemma near2 (P D : list Z) en ed ks m j X Y t :
  length P = (2 * length D - 1)%nat -> D <> [] -> (0 <= en)%Z -> (0 <= ed)%Z -> squares (2 ^ Z.of_nat m) P D en ed ks j X Y = true ->
  let q := 2 ^ m in
  IZR X <= q * fst t <= IZR (X + 2 ^ Z.of_nat j) -> IZR Y <= q * snd t <= IZR (Y + 2 ^ Z.of_nat j) ->
  Forall (fun k => meets k (q * fst t, q * snd t)) ks -> good (spread P) (spread D) en ed t.
Proof.
  intros LP ND Hen Hed K q Hx Hy F. set (Z2 := (2 ^ Z.of_nat m)%Z) in *. assert (PZ : (0 < Z2)%Z) by (unfold Z2; apply Z.pow_pos_nonneg; lia). assert (EZ : IZR Z2 = q) by (unfold Z2, q; rewrite <- pow_IZR; reflexivity).
  assert (ET : (zr Z2 * t)%C = (q * fst t, q * snd t)) by (apply c_eq; unfold zr; simpl; rewrite EZ; ring).
  unfold good. rewrite !spread_ok. change (good P D en ed (t * t)%C). apply (unscale P D en ed (Z2 * Z2) _ LP ND ltac:(lia)). rewrite zr_mul. replace (zr Z2 * zr Z2 * (t * t))%C with (zr Z2 * t * (zr Z2 * t))%C by ring.
  apply (cover_sound _ (fun u => good _ _ en ed (u * u)%C) (fun c r t => square_sound _ _ _ _ c r t Hen Hed) ks j X Y (zr Z2 * t)%C K); rewrite ET; assumption.
Qed.
Lemma far (P D : list Z) en ed t v : length P = (2 * length D - 1)%nat -> D <> [] -> (t * v = 1)%C -> good (rev P) (rev D) en ed v -> good P D en ed t.
Proof.
  intros LP ND TV [G1 G2]. rewrite (zeval_rev D t v TV) in G1, G2. rewrite (zeval_rev P t v TV) in G2. rewrite !Cmod_mult, !cmod_pow_n in *.
  assert (T1 : Cmod t * Cmod v = 1) by (rewrite <- Cmod_mult, TV; apply Cmod_1). set (a := Cmod t) in *. set (b := Cmod v) in *. assert (A0 : 0 <= a) by apply Cmod_ge_0. assert (B0 : 0 <= b) by apply Cmod_ge_0.
  destruct D as [|d D]; [congruence|]. set (D0 := d :: D) in *. assert (LD : length D0 = S (length D)) by reflexivity. rewrite LD in *. replace (2 * S (length D) - 1)%nat with (S (2 * length D)) in LP by lia. rewrite LP in G2. cbn [pow] in G1, G2.
  replace (a * (b * b ^ length D * Cmod (zeval D0 t))) with (b ^ length D * Cmod (zeval D0 t)) in G1 by (replace (a * (b * b ^ length D * Cmod (zeval D0 t))) with (a * b * (b ^ length D * Cmod (zeval D0 t))) by ring; rewrite T1; ring).
  replace (a * (b * b ^ length D * Cmod (zeval D0 t))) with (b ^ length D * Cmod (zeval D0 t)) in G2 by (replace (a * (b * b ^ length D * Cmod (zeval D0 t))) with (a * b * (b ^ length D * Cmod (zeval D0 t))) by ring; rewrite T1; ring).
  replace (a * (b * b ^ (2 * length D) * Cmod (zeval P t))) with (b ^ (2 * length D) * Cmod (zeval P t)) in G2 by (replace (a * (b * b ^ (2 * length D) * Cmod (zeval P t))) with (a * b * (b ^ (2 * length D) * Cmod (zeval P t))) by ring; rewrite T1; ring).
  rewrite (Nat.mul_comm 2), pow_mult in G2. assert (Pb : 0 < b) by (destruct (Req_dec b 0) as [Z|Z]; [rewrite Z in T1; lra|lra]). set (k := b ^ length D) in *. assert (Pk : 0 < k) by (apply pow_lt; exact Pb).
  split.
  - apply Rmult_lt_reg_l with k; [exact Pk|]. lra.
  - apply Rmult_le_reg_l with (k ^ 2); [apply pow_lt; exact Pk|]. replace (k ^ 2 * (IZR en * Cmod (zeval D0 t) ^ 2)) with (IZR en * (k * Cmod (zeval D0 t) * (k * Cmod (zeval D0 t) * 1))) by ring. lra.
Qed.

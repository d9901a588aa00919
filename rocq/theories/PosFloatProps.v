(** C108: equivalent positions in floating-point arithmetic. *)
From Coq Require Import String List Bool Arith ZArith QArith Qreals Reals Lra Lia.
From Flocq Require Import Core.
From Verif Require Import Base SymData SymModel EnergyFloatModel BinFloatProps SymFloatModel SymFloatProps PosFloatModel.
Import ListNotations.
Local Open Scope R_scope.

(** ** Rows of the tabulated operations: entries -1, 0 and 1, at most two of them not 0, and a translation that is no third only with at most one *)
Definition unit_entry (a : Z) : bool := ((a =? 0) || (a =? 1) || (a =? -1))%Z.
Definition row_fine (r : Z * Z * Z) (t : Q) : bool :=
  let '(a, b, c) := r in
  unit_entry a && unit_entry b && unit_entry c && ((a =? 0) || (b =? 0) || (c =? 0))%Z && (0 <=? Qnum t)%Z && (Qnum t <? Zpos (Qden t))%Z &&
  ((Qnum t =? 0) || negb (Qnum t * 8 mod Zpos (Qden t) =? 0) || ((a =? 0) && (b =? 0)) || ((a =? 0) && (c =? 0)) || ((b =? 0) && (c =? 0)))%Z.
Definition op_fine (o : op) : bool := let '(r, r', r'') := rot_of o in row_fine r (t1 o) && row_fine r' (t2 o) && row_fine r'' (t3 o).
Definition entry_fine (e : entry) : bool := match get_generator_from_str (e_gens e) with Ok gens => match operations gens (e_total e) with Ok ops => forallb op_fine ops | Err _ => false end | Err _ => false end.
Lemma all_fine : forallb entry_fine table = true.
Proof. vm_compute. reflexivity. Qed.
Lemma ops_fine e gens ops : In e table -> get_generator_from_str (e_gens e) = Ok gens -> operations gens (e_total e) = Ok ops -> Forall (fun o => op_fine o = true) ops.
Proof. intros I G O. assert (A := all_fine). rewrite forallb_forall in A. specialize (A e I). unfold entry_fine in A. rewrite G, O in A. apply Forall_forall. rewrite forallb_forall in A. exact A. Qed.

Record row_spec (r : Z * Z * Z) (t : Q) : Prop := {
  rs_unit : forall k, In k [fst (fst r); snd (fst r); snd r] -> k = 0%Z \/ k = 1%Z \/ k = (-1)%Z;
  rs_two : fst (fst r) = 0%Z \/ snd (fst r) = 0%Z \/ snd r = 0%Z;
  rs_t : 0 <= Q2R t < 1;
  rs_one : Q2R t = 0 \/ ~ (exists n, t * 8 == inject_Z n)%Q \/ (fst (fst r) = 0 /\ snd (fst r) = 0)%Z \/ (fst (fst r) = 0 /\ snd r = 0)%Z \/ (snd (fst r) = 0 /\ snd r = 0)%Z }.
Lemma unit_ok k : unit_entry k = true -> k = 0%Z \/ k = 1%Z \/ k = (-1)%Z.
Proof. unfold unit_entry. rewrite !orb_true_iff, !Z.eqb_eq. tauto. Qed.
Lemma row_ok r t : row_fine r t = true -> row_spec r t.
Proof.
  destruct r as [[a b] c]. unfold row_fine. intros H. repeat (apply andb_prop in H; destruct H as [H ?]).
  assert (D : 0 < IZR (Zpos (Qden t))) by (apply IZR_lt; reflexivity).
  constructor; cbn [fst snd].
  - intros k [<-|[<-|[<-|[]]]]; apply unit_ok; assumption.
  - rewrite !orb_true_iff, !Z.eqb_eq in *. tauto.
  - unfold Q2R. split; [apply Rmult_le_pos; [apply IZR_le, Z.leb_le; assumption|apply Rlt_le, Rinv_0_lt_compat, D]|]. apply Rmult_lt_reg_r with (IZR (Zpos (Qden t))); [exact D|]. rewrite Rmult_assoc, Rinv_l, Rmult_1_r, Rmult_1_l by lra. apply IZR_lt, Z.ltb_lt. assumption.
  - match goal with H : _ || _ || _ || _ || _ = true |- _ => rename H into K end. rewrite !orb_true_iff, !andb_true_iff, !Z.eqb_eq, negb_true_iff, Z.eqb_neq in K.
    destruct K as [[[[K|K]|K]|K]|K]; [left; unfold Q2R; rewrite K; lra|right; left|tauto|tauto|tauto].
    intros [n N]. apply K. unfold Qeq in N. cbn in N. rewrite Pos.mul_1_r, Z.mul_1_r in N. rewrite N. apply Z.mod_mul. discriminate.
Qed.
Lemma op_ok o : op_fine o = true -> row_spec (r11 o, r12 o, r13 o) (t1 o) /\ row_spec (r21 o, r22 o, r23 o) (t2 o) /\ row_spec (r31 o, r32 o, r33 o) (t3 o).
Proof. unfold op_fine, rot_of. intros H. apply andb_prop in H. destruct H as [H H3]. apply andb_prop in H. destruct H as [H1 H2]. split; [|split]; apply row_ok; assumption. Qed.

(** ** Rows times positions *)
Lemma double_rnd x : double (rnd x).
Proof. apply generic_format_round; [apply FLT_exp_valid; reflexivity|apply valid_rnd_N]. Qed.
Lemma double_zero : double 0.
Proof. apply generic_format_0. Qed.
Lemma double_opp x : double x -> double (- x).
Proof. apply generic_format_opp. Qed.
Lemma double_unit k x : k = 0%Z \/ k = 1%Z \/ k = (-1)%Z -> double x -> double (IZR k * x).
Proof. intros [-> | [-> | ->]] D; [rewrite Rmult_0_l; apply double_zero|rewrite Rmult_1_l; exact D|replace (-1 * x) with (- x) by ring; apply double_opp, D]. Qed.
Definition dot3 (r : Z * Z * Z) (p : R * R * R) : R := let '(a, b, c) := r in let '(x, y, z) := p in IZR a * x + IZR b * y + IZR c * z.
Definition doubles (p : R * R * R) : Prop := let '(x, y, z) := p in double x /\ double y /\ double z.
Lemma coord_ok sum r q t p : summation3 sum -> row_spec r q -> doubles p -> fcoord sum r t p = rnd (rnd (dot3 r p) + t).
Proof.
  destruct r as [[a b] c], p as [[x y] z]. intros S R (X & Y & Z). unfold fcoord, dot3. f_equal. f_equal. destruct R as [U T _ _]. cbn [fst snd] in U, T.
  assert (A := double_unit a x (U a ltac:(cbn; tauto)) X). assert (B := double_unit b y (U b ltac:(cbn; tauto)) Y). assert (C := double_unit c z (U c ltac:(cbn; tauto)) Z).
  rewrite !(rnd_double (_ * _)) by assumption. destruct (S (IZR a * x) (IZR b * y) (IZR c * z)) as [<-|[<-|[<-|[]]]];
  destruct T as [-> | [-> | ->]]; rewrite ?Rmult_0_l, ?Rplus_0_l, ?Rplus_0_r, ?(rnd_double (IZR a * x)), ?(rnd_double (IZR b * y)), ?(rnd_double (IZR c * z)), ?(rnd_double (rnd _)) by (assumption || apply double_rnd); try reflexivity; f_equal; ring.
Qed.
(** ** Positions *)
Definition bounded (B : R) (p : R * R * R) : Prop := let '(x, y, z) := p in Rabs x <= B /\ Rabs y <= B /\ Rabs z <= B.
Lemma dot_bound r q p B : row_spec r q -> 1 <= B -> bounded B p -> Rabs (dot3 r p) <= 2 * B.
Proof.
  destruct r as [[a b] c], p as [[x y] z]. intros [U T _ _] B1 (X & Y & Z). cbn [fst snd] in U, T. unfold dot3.
  assert (K : forall k w, k = 0%Z \/ k = 1%Z \/ k = (-1)%Z -> Rabs w <= B -> - B <= IZR k * w <= B). { intros k w [-> | [-> | ->]] W; apply Rabs_le_inv in W; lra. }
  assert (A := K a x (U a ltac:(cbn; tauto)) X). assert (A' := K b y (U b ltac:(cbn; tauto)) Y). assert (A'' := K c z (U c ltac:(cbn; tauto)) Z). apply Rabs_le.
  destruct T as [-> | [-> | ->]]; rewrite Rmult_0_l in *; lra.
Qed.
Lemma coord_near sum r q t p B : summation3 sum -> row_spec r q -> doubles p -> near_to t q -> 1 <= B -> bounded B p -> Rabs (fcoord sum r t p - (dot3 r p + Q2R q)) <= B / 10 ^ 15.
Proof.
  intros S R D [N _] B1 Bp. rewrite (coord_ok sum r q t p S R D). assert (A := dot_bound r q p B R B1 Bp). destruct R as [_ _ T _]. set (d := dot3 r p) in *. clearbody d.
  assert (U : 0 < u <= / 10 ^ 15) by apply u_small. assert (UV : u <= 112 / 10 ^ 18) by (unfold u; lra). assert (M : bpow radix2 (-900) <= B). { apply Rle_trans with 1; [|exact B1]. apply (bpow_le radix2 (-900) 0). lia. }
  assert (E := rnd_within B 2 d M A). assert (A' := Rabs_le_inv _ _ A). assert (E' := Rabs_le_inv _ _ E). assert (N' := Rabs_le_inv _ _ N).
  assert (UB : 0 < u * B <= / 10 ^ 15 * B) by (split; [apply Rmult_lt_0_compat; lra|apply Rmult_le_compat_r; lra]). assert (UB' : u * B <= 112 / 10 ^ 18 * B) by (apply Rmult_le_compat_r; lra).
  assert (F : Rabs (rnd d + t) <= 31 / 10 * B) by (apply Rabs_le; lra). assert (G := Rabs_le_inv _ _ (rnd_within B (31 / 10) (rnd d + t) M F)). apply Rabs_le. lra.
Qed.
Definition exact_position (o : op) (p : R * R * R) : R * R * R :=
  (dot3 (r11 o, r12 o, r13 o) p + Q2R (t1 o), dot3 (r21 o, r22 o, r23 o) p + Q2R (t2 o), dot3 (r31 o, r32 o, r33 o) p + Q2R (t3 o)).
Definition within (d : R) (p q : R * R * R) : Prop := let '(x, y, z) := p in let '(x', y', z') := q in Rabs (x - x') <= d /\ Rabs (y - y') <= d /\ Rabs (z - z') <= d.
Definition eighths (o : op) : Prop := forall t, In t [t1 o; t2 o; t3 o] -> exists n, (t * 8 == inject_Z n)%Q.

Lemma apply_rows sum p f o : matches f o -> fapply sum p f = (fcoord sum (r11 o, r12 o, r13 o) (f1 f) p, fcoord sum (r21 o, r22 o, r23 o) (f2 f) p, fcoord sum (r31 o, r32 o, r33 o) (f3 f) p).
Proof. intros (E & _). unfold fapply. rewrite E. reflexivity. Qed.
Lemma matched e sum gens ops l : summation sum -> In e table -> get_generator_from_str (e_gens e) = Ok gens -> operations gens (e_total e) = Ok ops -> foperations sum (map generator gens) (e_total e) = Ok l ->
  Forall2 matches l ops /\ Forall (fun o => op_fine o = true) ops.
Proof.
  intros S I G O L. destruct (C106_operations sum e S I) as (g & m & k & G' & O' & L' & F). assert (g = gens) by congruence. subst g. assert (m = ops) by congruence. subst m. assert (k = l) by congruence. subst k. split; [exact F|eapply ops_fine; eassumption].
Qed.

(** Whatever the order of addition, there is one position for each operation of exact arithmetic, in the same order, and it is right to within 10^-15 (times the largest coordinate, if that is more than 1). *)
Theorem C108_positions : forall sum sum3 e p B, summation sum -> summation3 sum3 -> In e table -> doubles p -> 1 <= B -> bounded B p -> exists gens ops l,
  get_generator_from_str (e_gens e) = Ok gens /\ operations gens (e_total e) = Ok ops /\ foperations sum (map generator gens) (e_total e) = Ok l /\
  Forall2 (fun q o => within (B / 10 ^ 15) q (exact_position o p)) (fsymmetrize sum3 l p) ops.
Proof.
  intros sum sum3 e p B S S3 I D B1 Bp. destruct (C106_operations sum e S I) as (gens & ops & l & G & O & L & F). exists gens, ops, l. repeat (split; [assumption|]). assert (W := ops_fine e gens ops I G O). clear G O L.
  unfold fsymmetrize. induction F as [|f o l ops M F IH]; cbn [map]; [constructor|]. inversion W as [|? ? Wo Wr]; subst. constructor; [|apply IH, Wr]. rewrite (apply_rows _ _ _ _ M). destruct (op_ok o Wo) as (R1 & R2 & R3). destruct M as (_ & N1 & N2 & N3).
  unfold within, exact_position. split; [|split]; apply coord_near; assumption.
Qed.
Print Assumptions C108_positions.

(** The positions are the same doubles in whatever order the machine adds, for coordinates of any size. *)
Theorem C108_same : forall sum sum3 sum3' e gens l p, summation sum -> summation3 sum3 -> summation3 sum3' -> In e table -> get_generator_from_str (e_gens e) = Ok gens ->
  foperations sum (map generator gens) (e_total e) = Ok l -> doubles p -> fsymmetrize sum3 l p = fsymmetrize sum3' l p.
Proof.
  intros sum sum3 sum3' e gens l p S S3 S3' I G L D. destruct (C106_operations sum e S I) as (g & ops & k & G' & O' & L' & F). assert (g = gens) by congruence. subst g. assert (k = l) by congruence. subst k. assert (W := ops_fine e gens ops I G O'). clear - F W S3 S3' D.
  unfold fsymmetrize. induction F as [|f o l ops M F IH]; cbn [map]; [reflexivity|]. inversion W as [|? ? Wo Wr]; subst. f_equal; [|apply IH, Wr]. rewrite !(apply_rows _ _ _ _ M). destruct (op_ok o Wo) as (R1 & R2 & R3). rewrite (coord_ok sum3 _ _ _ _ S3 R1 D), (coord_ok sum3 _ _ _ _ S3 R2 D), (coord_ok sum3 _ _ _ _ S3 R3 D), (coord_ok sum3' _ _ _ _ S3' R1 D), (coord_ok sum3' _ _ _ _ S3' R2 D), (coord_ok sum3' _ _ _ _ S3' R3 D). reflexivity.
Qed.
Print Assumptions C108_same.

Lemma combine_matched sum3 p l ops q o : Forall2 matches l ops -> Forall (fun o => op_fine o = true) ops -> In (q, o) (combine (fsymmetrize sum3 l p) ops) -> exists f, matches f o /\ op_fine o = true /\ q = fapply sum3 p f.
Proof.
  intros F. unfold fsymmetrize. induction F as [|f o' l ops M F IH]; cbn; [easy|]. intros W [H|H]; inversion W as [|? ? Wo Wr]; subst; [|exact (IH Wr H)]. injection H as <- <-. exists f. auto.
Qed.
(** Coordinates that are multiples of 2^-50 and at most 1: exact for translations of halves, quarters and eighths. *)
Definition coarse (p : R * R * R) : Prop := let '(x, y, z) := p in forall w, In w [x; y; z] -> exists n, (Z.abs n <= 2 ^ 50)%Z /\ w = IZR n / IZR (2 ^ 50).
Lemma coarse_double p : coarse p -> doubles p.
Proof.
  destruct p as [[x y] z]. intros C. assert (K : forall w, In w [x; y; z] -> double w). { intros w W. destruct (C w W) as (n & N & ->). unfold Rdiv. change (/ IZR (2 ^ 50)) with (bpow radix2 (-50)). apply dyadic_double; lia. }
  split; [|split]; apply K; cbn; tauto.
Qed.
Lemma coord_exact sum r q t p : summation3 sum -> row_spec r q -> coarse p -> near_to t q -> (exists n, q * 8 == inject_Z n)%Q -> fcoord sum r t p = dot3 r p + Q2R q.
Proof.
  intros S R C [_ N] E. rewrite (N E). rewrite (coord_ok sum r q _ p S R (coarse_double p C)). destruct R as [U T Q _]. destruct r as [[a b] c], p as [[x y] z]. cbn [fst snd] in U, T.
  destruct (C x ltac:(cbn; tauto)) as (nx & X & ->). destruct (C y ltac:(cbn; tauto)) as (ny & Y & ->). destruct (C z ltac:(cbn; tauto)) as (nz & Z & ->). unfold dot3.
  set (s := (a * nx + b * ny + c * nz)%Z). assert (Es : IZR a * (IZR nx / IZR (2 ^ 50)) + IZR b * (IZR ny / IZR (2 ^ 50)) + IZR c * (IZR nz / IZR (2 ^ 50)) = IZR s / IZR (2 ^ 50)) by (unfold s; rewrite !plus_IZR, !mult_IZR; field; apply IZR_neq; discriminate).
  rewrite Es. assert (Bs : (Z.abs s <= 2 ^ 51)%Z). { assert (K : forall k w, k = 0%Z \/ k = 1%Z \/ k = (-1)%Z -> (Z.abs w <= 2 ^ 50)%Z -> (- 2 ^ 50 <= k * w <= 2 ^ 50)%Z) by (intros k w [-> | [-> | ->]] W; lia).
    assert (A := K a nx (U a ltac:(cbn; tauto)) X). assert (A' := K b ny (U b ltac:(cbn; tauto)) Y). assert (A'' := K c nz (U c ltac:(cbn; tauto)) Z). unfold s. destruct T as [-> | [-> | ->]]; rewrite ?Z.mul_0_l in *; lia. }
  clearbody s. rewrite (dyadic_fixed s 50) by lia. destruct E as [n E]. assert (Eq : Q2R q = IZR (n * 2 ^ 47) / IZR (2 ^ 50)). { apply Qeq_eqR in E. rewrite Q2R_mult in E. assert (Q2R 8 = 8) by (unfold Q2R; cbn; lra). assert (Q2R (inject_Z n) = IZR n) by (unfold Q2R; cbn; field). rewrite mult_IZR. change (IZR (2 ^ 47)) with 140737488355328. change (IZR (2 ^ 50)) with 1125899906842624. lra. }
  assert (Bn : (0 <= n < 8)%Z). { apply Qeq_eqR in E. rewrite Q2R_mult in E. assert (Q2R 8 = 8) by (unfold Q2R; cbn; lra). assert (Q2R (inject_Z n) = IZR n) by (unfold Q2R; cbn; field). split; [apply le_IZR|apply lt_IZR]; lra. }
  rewrite Eq. replace (IZR s / IZR (2 ^ 50) + IZR (n * 2 ^ 47) / IZR (2 ^ 50)) with (IZR (s + n * 2 ^ 47) / IZR (2 ^ 50)) by (rewrite plus_IZR; field; apply IZR_neq; discriminate). apply dyadic_fixed; lia.
Qed.
Theorem C108_exact : forall sum sum3 e gens ops l p q o, summation sum -> summation3 sum3 -> In e table -> get_generator_from_str (e_gens e) = Ok gens -> operations gens (e_total e) = Ok ops ->
  foperations sum (map generator gens) (e_total e) = Ok l -> coarse p -> In (q, o) (combine (fsymmetrize sum3 l p) ops) -> eighths o -> q = exact_position o p.
Proof.
  intros sum sum3 e gens ops l p q o S S3 I G O L C H E. destruct (matched e sum gens ops l S I G O L) as [F W]. destruct (combine_matched _ _ _ _ _ _ F W H) as (f & M & Wo & ->). rewrite (apply_rows _ _ _ _ M). destruct (op_ok o Wo) as (R1 & R2 & R3). destruct M as (_ & N1 & N2 & N3).
  unfold exact_position. rewrite (coord_exact sum3 _ _ _ _ S3 R1 C N1), (coord_exact sum3 _ _ _ _ S3 R2 C N2), (coord_exact sum3 _ _ _ _ S3 R3 C N3) by (apply E; cbn; tauto). reflexivity.
Qed.
Print Assumptions C108_exact.

(** Positions that coincide in exact arithmetic coincide, if the translations are halves, quarters and eighths. *)
Lemma coord_once sum r q t p : summation3 sum -> row_spec r q -> doubles p -> near_to t q -> (exists n, q * 8 == inject_Z n)%Q -> fcoord sum r t p = rnd (dot3 r p + Q2R q).
Proof.
  intros S R D [_ N] E. rewrite (N E). rewrite (coord_ok sum r q _ p S R D). destruct R as [U _ _ O]. destruct r as [[a b] c], p as [[x y] z]. destruct D as (X & Y & Z). cbn [fst snd] in U, O. unfold dot3.
  assert (A := double_unit a x (U a ltac:(cbn; tauto)) X). assert (B := double_unit b y (U b ltac:(cbn; tauto)) Y). assert (C := double_unit c z (U c ltac:(cbn; tauto)) Z).
  destruct O as [O|[O|[[-> ->]|[[-> ->]|[-> ->]]]]]; [rewrite O, !Rplus_0_r; apply rnd_double, double_rnd|contradiction| | |]; rewrite !Rmult_0_l, ?Rplus_0_l, ?Rplus_0_r, (rnd_double (_ * _)) by assumption; reflexivity.
Qed.
Theorem C108_coincide : forall sum sum3 e gens ops l p q o q' o', summation sum -> summation3 sum3 -> In e table -> get_generator_from_str (e_gens e) = Ok gens -> operations gens (e_total e) = Ok ops ->
  foperations sum (map generator gens) (e_total e) = Ok l -> doubles p -> In (q, o) (combine (fsymmetrize sum3 l p) ops) -> In (q', o') (combine (fsymmetrize sum3 l p) ops) -> eighths o -> eighths o' ->
  exact_position o p = exact_position o' p -> q = q'.
Proof.
  intros sum sum3 e gens ops l p q o q' o' S S3 I G O L D H H' E E' X. destruct (matched e sum gens ops l S I G O L) as [F W]. destruct (combine_matched _ _ _ _ _ _ F W H) as (f & M & Wo & ->). destruct (combine_matched _ _ _ _ _ _ F W H') as (f' & M' & Wo' & ->).
  rewrite (apply_rows _ _ _ _ M), (apply_rows _ _ _ _ M'). destruct (op_ok o Wo) as (R1 & R2 & R3). destruct M as (_ & N1 & N2 & N3). destruct (op_ok o' Wo') as (R1' & R2' & R3'). destruct M' as (_ & N1' & N2' & N3').
  rewrite (coord_once sum3 _ _ _ _ S3 R1 D N1), (coord_once sum3 _ _ _ _ S3 R2 D N2), (coord_once sum3 _ _ _ _ S3 R3 D N3), (coord_once sum3 _ _ _ _ S3 R1' D N1'), (coord_once sum3 _ _ _ _ S3 R2' D N2'), (coord_once sum3 _ _ _ _ S3 R3' D N3') by (first [apply E; cbn; tauto|apply E'; cbn; tauto]).
  assert (P : forall a b c a' b' c' : R, (a, b, c) = (a', b', c') -> (rnd a, rnd b, rnd c) = (rnd a', rnd b', rnd c')) by (intros; congruence). exact (P _ _ _ _ _ _ X).
Qed.
Print Assumptions C108_coincide.

(** Sixths: in P6_122 the positions z + 1/6 and 2/3 - z of z = 1/4 are different doubles. *)
Lemma Forall2_nth {A B} (P : A -> B -> Prop) k l i b : Forall2 P k l -> nth_error l i = Some b -> exists a, nth_error k i = Some a /\ P a b.
Proof. intros F. revert i. induction F as [|x y k l H _ IH]; intros [|i] E; try discriminate; cbn in *; [injection E as <-; eauto|exact (IH i E)]. Qed.
Lemma nth_combine {A B} (l : list A) (m : list B) i a b : nth_error l i = Some a -> nth_error m i = Some b -> In (a, b) (combine l m).
Proof. revert m i. induction l as [|x l IH]; intros [|y m] [|i] E F; try discriminate; cbn in *; [left; congruence|right; exact (IH m i E F)]. Qed.
Definition test (l : list aop) (ops : list op) : bool :=
  match nth_error l 8, nth_error l 10, nth_error ops 8, nth_error ops 10 with
  | Some a, Some b, Some o, Some o' =>
      match a3 a, a3 b with Some (x, x'), Some (y, y') => (x =? 192153584101140992) && (x' =? 192153584101140992) && (y =? 768614336404564608) && (y' =? 768614336404564608) | _, _ => false end &&
      (r13 o =? 0) && (r13 o' =? 0) && (r23 o =? 0) && (r23 o' =? 0) && (r33 o =? 1) && (r33 o' =? -1) &&
      Qeq_bool (t1 o) 0 && Qeq_bool (t1 o') 0 && Qeq_bool (t2 o) 0 && Qeq_bool (t2 o') 0 && Qeq_bool (t3 o) (1 # 6) && Qeq_bool (t3 o') (2 # 3)
  | _, _, _, _ => false
  end%Z.
Theorem C108_coincide_refuted : exists e gens ops p, In e table /\ get_generator_from_str (e_gens e) = Ok gens /\ operations gens (e_total e) = Ok ops /\ doubles p /\
  forall sum sum3, summation sum -> summation3 sum3 -> exists l q o q' o', foperations sum (map generator gens) (e_total e) = Ok l /\
    In (q, o) (combine (fsymmetrize sum3 l p) ops) /\ In (q', o') (combine (fsymmetrize sum3 l p) ops) /\ exact_position o p = exact_position o' p /\ q <> q'.
Proof.
  destruct (find (fun e => String.eqb (e_key e) "P6_122") table) as [e|] eqn:E; [|vm_compute in E; discriminate]. assert (I := proj1 (find_some _ _ E)).
  assert (D : match get_generator_from_str (e_gens e) with Ok gens => match operations gens (e_total e), aclosure (S (e_total e)) (e_total e) (map agen gens) (map agen gens) with
    | Ok ops, Some l => Nat.eqb (List.length l) (e_total e) && anears l ops && test l ops | _, _ => false end | Err _ => false end = true) by (vm_compute in E; injection E as <-; vm_compute; reflexivity).
  destruct (get_generator_from_str (e_gens e)) as [gens|] eqn:G; [|discriminate]. destruct (operations gens (e_total e)) as [ops|] eqn:O; [|discriminate]. assert (W := ops_fine e gens ops I G O).
  exists e, gens, ops, (0, 0, 1 / 4). split; [exact I|]. split; [exact G|]. split; [exact O|]. assert (Dp : doubles (0, 0, 1 / 4)). { split; [apply double_zero|]. split; [apply double_zero|]. replace (1 / 4) with (IZR 1 * bpow radix2 (-2)) by (cbn; lra). apply dyadic_double; lia. }
  split; [exact Dp|]. intros sum sum3 HS S3. destruct (aclosure _ _ _ _) as [l|] eqn:A; [|discriminate]. apply andb_prop in D. destruct D as [D T]. apply andb_prop in D. destruct D as [C D].
  assert (Gn : Forall2 rel (map generator gens) (map agen gens)) by (clear; induction gens; cbn; [constructor|]; constructor; [apply agen_ok|assumption]).
  destruct (closure_ok sum HS _ _ _ _ _ _ _ Gn Gn A) as (k & K & F). assert (M := anears_ok _ _ _ D F). exists k.
  unfold test in T. destruct (nth_error l 8) as [a|] eqn:A8; [|discriminate]. destruct (nth_error l 10) as [b|] eqn:A10; [|discriminate]. destruct (nth_error ops 8) as [o|] eqn:O8; [|discriminate]. destruct (nth_error ops 10) as [o'|] eqn:O10; [|discriminate].
  destruct (Forall2_nth _ _ _ _ _ F A8) as (f & F8 & (_ & _ & _ & Rf)). destruct (Forall2_nth _ _ _ _ _ F A10) as (g & F10 & (_ & _ & _ & Rg)).
  destruct (Forall2_nth _ _ _ _ _ M O8) as (f' & F8' & Mf). assert (f' = f) by congruence. subst f'. destruct (Forall2_nth _ _ _ _ _ M O10) as (g' & F10' & Mg). assert (g' = g) by congruence. subst g'.
  exists (fapply sum3 (0, 0, 1 / 4) f), o, (fapply sum3 (0, 0, 1 / 4) g), o'. split; [unfold foperations; rewrite K, (rel_length _ _ F), C; reflexivity|].
  split; [apply (nth_combine _ _ 8); [unfold fsymmetrize; rewrite nth_error_map, F8; reflexivity|exact O8]|]. split; [apply (nth_combine _ _ 10); [unfold fsymmetrize; rewrite nth_error_map, F10; reflexivity|exact O10]|].
  destruct (a3 a) as [[x x']|]; [|discriminate]. destruct (a3 b) as [[y y']|]; [|discriminate]. repeat (apply andb_prop in T; destruct T as [T ?]). repeat match goal with H : (_ =? _)%Z = true |- _ => apply Z.eqb_eq in H | H : Qeq_bool _ _ = true |- _ => apply Qeq_bool_iff, Qeq_eqR in H end. subst x x' y y'. cbn [inI] in Rf, Rg.
  split.
  - unfold exact_position, dot3. repeat match goal with H : Q2R _ = Q2R _ |- _ => rewrite H; clear H end. repeat match goal with H : r13 _ = _ |- _ => rewrite H | H : r23 _ = _ |- _ => rewrite H | H : r33 _ = _ |- _ => rewrite H end. unfold Q2R. cbn. f_equal; [f_equal|]; lra.
  - rewrite (apply_rows _ _ _ _ Mf), (apply_rows _ _ _ _ Mg). intros X. apply (f_equal snd) in X. cbn [snd] in X. revert X.
    rewrite Forall_forall in W. destruct (op_ok o (W o (nth_error_In _ _ O8))) as (_ & _ & R3). destruct (op_ok o' (W o' (nth_error_In _ _ O10))) as (_ & _ & R3').
    rewrite (coord_ok sum3 _ _ _ _ S3 R3 Dp), (coord_ok sum3 _ _ _ _ S3 R3' Dp). unfold dot3. repeat match goal with H : r33 _ = _ |- _ => rewrite H end. rewrite !Rmult_0_r, !Rplus_0_l.
    replace (f3 f) with (P60 192153584101140992) by lra. replace (f3 g) with (P60 768614336404564608) by lra. replace (1 * (1 / 4)) with (P60 (2 ^ 58)) by (unfold P60; cbn; lra). replace (-1 * (1 / 4)) with (P60 (- 2 ^ 58)) by (unfold P60; cbn; lra).
    rewrite !rz_ok, !P60_add, !rz_ok. intros X. apply (Rlt_irrefl (P60 480383960252852736)). 
    change (rz (rz (2 ^ 58) + 192153584101140992)) with 480383960252852736%Z in X. change (rz (rz (- 2 ^ 58) + 768614336404564608)) with 480383960252852864%Z in X. rewrite X at 2. apply P60_lt. reflexivity.
Qed.
Print Assumptions C108_coincide_refuted.
(** The hypotheses are met: adding from left to right, and in P2_1/c (1/8, 1/4, 0), whose translations are halves. *)
Example C108_case : summation3 (fun a b c => rnd (rnd (a + b) + c)) /\ coarse (1 / 8, 1 / 4, 0) /\ bounded 1 (1 / 8, 1 / 4, 0) /\
  exists e gens ops, In e table /\ e_number e = 14%Z /\ get_generator_from_str (e_gens e) = Ok gens /\ operations gens (e_total e) = Ok ops /\ Forall eighths ops /\ List.length ops = 4%nat.
Proof.
  split; [left; reflexivity|]. split.
  { intros w [<-|[<-|[<-|[]]]]; [exists (2 ^ 47)%Z|exists (2 ^ 48)%Z|exists 0%Z]; (split; [lia|cbn; lra]). }
  split; [repeat split; apply Rabs_le; lra|].
  destruct (find (fun e => (e_number e =? 14)%Z) table) as [e|] eqn:E; [|vm_compute in E; discriminate]. destruct (find_some _ _ E) as [I N]. apply Z.eqb_eq in N.
  assert (D : match get_generator_from_str (e_gens e) with Ok gens => match operations gens (e_total e) with Ok ops => forallb (fun o => forallb (fun t => (Qnum t * 8 mod Zpos (Qden t) =? 0)%Z) [t1 o; t2 o; t3 o]) ops && Nat.eqb (List.length ops) 4 | Err _ => false end | Err _ => false end = true) by (vm_compute in E; injection E as <-; vm_compute; reflexivity).
  destruct (get_generator_from_str (e_gens e)) as [gens|] eqn:G; [|discriminate]. destruct (operations gens (e_total e)) as [ops|] eqn:O; [|discriminate]. apply andb_prop in D. destruct D as [D L]. exists e, gens, ops. repeat (split; [assumption|]). split; [|apply Nat.eqb_eq, L].
  apply Forall_forall. intros o Ho t Ht. rewrite forallb_forall in D. specialize (D o Ho). rewrite forallb_forall in D. specialize (D t Ht). apply Z.eqb_eq in D. apply Z.mod_divide in D; [|discriminate]. destruct D as [n D]. exists n. unfold Qeq. cbn. rewrite Pos.mul_1_r, Z.mul_1_r. exact D.
Qed.

(** C113: background subtraction in floating-point arithmetic. *)
From Coq Require Import List Arith ZArith Reals Lra Lia Psatz.
From Flocq Require Import Core Sterbenz Plus_error.
From Verif Require Import Base EnergyFloatModel BinFloatProps NormFloatModel NormFloatProps SubFloatModel.
Import ListNotations.
Local Open Scope R_scope.

Lemma double_round x : double (rnd x).
Proof. apply generic_format_round; [apply FLT_exp_valid; reflexivity|apply valid_rnd_N]. Qed.
Lemma one_times x : double x -> scaled x 1 1 = Some x.
Proof. intros D. unfold scaled. destruct (Req_EM_T 1 0); [lra|]. unfold Rdiv. rewrite Rinv_1, !Rmult_1_r, !(rnd_double _ D). reflexivity. Qed.
Lemma length_of l v : intensity_fl l = Ok v -> List.length v = List.length l.
Proof. unfold intensity_fl. destruct (largest (map snd l)); [|discriminate]. cbn [bind]. intros [=<-]. apply map_length. Qed.
Lemma error_length_of l v : error_fl l = Ok v -> List.length v = List.length l.
Proof. unfold error_fl. destruct (largest (map snd l)); [|discriminate]. cbn [bind]. intros [=<-]. apply map_length. Qed.
Lemma intensity_double l v i a : intensity_fl l = Ok v -> nth_error v i = Some (Some a) -> double a.
Proof.
  unfold intensity_fl. destruct (largest (map snd l)) as [r|]; [|discriminate]. cbn [bind]. intros [=<-] E. rewrite nth_error_map in E. unfold point in E, l. destruct (nth_error l i) as [p|]; cbn [option_map] in E; [|discriminate E].
  unfold scaled in E. destruct (Req_EM_T (snd p) 0); [discriminate E|]. injection E as E. rewrite <- E. apply double_round.
Qed.
Lemma pairwise_nth f l m i a b : nth_error l i = Some (Some a) -> nth_error m i = Some (Some b) -> nth_error (pairwise f l m) i = Some (Some (f a b)).
Proof. revert m i. induction l as [|x l IH]; intros [|y m] [|i]; cbn; try discriminate; [intros [=->] [=->]; reflexivity|apply IH]. Qed.
Lemma read_nth l i x : nth_error l i = Some (Some x) -> double x -> nth_error (read l) i = Some (Some x).
Proof. intros E D. unfold read. rewrite nth_error_map, E. cbn. rewrite one_times by exact D. reflexivity. Qed.
Lemma readable l : l <> [] -> (exists v, intensity_fl l = Ok v) /\ (exists v, error_fl l = Ok v).
Proof. intros N. destruct (largest_ok l N) as (r & E & _). unfold intensity_fl, error_fl. rewrite E. cbn [bind]. split; eexists; reflexivity. Qed.

(** C113.  Data of equally many points can be subtracted.  There is a ValueError without points and for numbers that differ (the case of one
    point against many is not in this model, see C07). *)
Theorem C113_answers : forall sq l m, (l <> [] -> List.length l = List.length m -> exists s, subtract_fl sq l m = Ok s /\ List.length (d_detector s) = List.length l /\ List.length (d_err s) = List.length l) /\
  (List.length l <> 1%nat -> List.length m <> 1%nat -> List.length l <> List.length m -> subtract_fl sq l m = Err ValueError) /\ (l = [] -> subtract_fl sq l m = Err ValueError).
Proof.
  intros sq l m. assert (PL : forall f a b, List.length a = List.length b -> List.length (pairwise f a b) = List.length a).
  { intros f a. induction a as [|x a IH]; intros [|y b] L; cbn in *; try lia. rewrite IH; lia. }
  split; [|split].
  - intros N L. assert (N2 : m <> []) by (intros ->; destruct l; [contradiction|discriminate]). destruct (readable l N) as [(i1 & E1) (e1 & F1)]. destruct (readable m N2) as [(i2 & E2) (e2 & F2)].
    unfold subtract_fl. rewrite E1, E2, F1, F2. cbn [bind]. rewrite (length_of _ _ E1), (length_of _ _ E2), L, Nat.eqb_refl. eexists. split; [reflexivity|]. cbn [d_detector d_err].
    rewrite !PL by (rewrite ?(length_of _ _ E1), ?(length_of _ _ E2), ?(error_length_of _ _ F1), ?(error_length_of _ _ F2); exact L). rewrite (length_of _ _ E1), (error_length_of _ _ F1), L. split; reflexivity.
  - intros _ _ L. destruct l as [|p l]; [reflexivity|]. destruct m as [|q m].
    { unfold subtract_fl. destruct (readable (p :: l)) as [(i1 & E1) _]; [discriminate|]. rewrite E1. reflexivity. }
    destruct (readable (p :: l)) as [(i1 & E1) (e1 & F1)]; [discriminate|]. destruct (readable (q :: m)) as [(i2 & E2) (e2 & F2)]; [discriminate|].
    unfold subtract_fl. rewrite E1, E2, F1, F2. cbn [bind]. rewrite (length_of _ _ E1), (length_of _ _ E2). apply Nat.eqb_neq in L. rewrite L. reflexivity.
  - intros ->. reflexivity.
Qed.
Print Assumptions C113_answers.

(** C113.  The intensity afterwards has the sign of the difference of the intensities, is 0 exactly when they are equal, and is exactly
    their difference when neither is more than twice the other. *)
Theorem C113_sign : forall sq l m s i v w a b, subtract_fl sq l m = Ok s -> intensity_fl l = Ok v -> intensity_fl m = Ok w -> nth_error v i = Some (Some a) -> nth_error w i = Some (Some b) ->
  exists c, nth_error (read (d_detector s)) i = Some (Some c) /\ (c = 0 <-> a = b) /\ (0 < c <-> b < a) /\ (b / 2 <= a <= 2 * b -> c = a - b).
Proof.
  intros sq l m s i v w a b S V W A B. unfold subtract_fl in S. rewrite V, W in S. cbn [bind] in S.
  destruct (error_fl l); [|discriminate]. destruct (error_fl m); [|discriminate]. cbn [bind] in S. destruct (Nat.eqb _ _); [|discriminate]. injection S as <-. cbn [d_detector].
  assert (Da := intensity_double _ _ _ _ V A). assert (Db := intensity_double _ _ _ _ W B).
  exists (rnd (a - b)). split; [apply read_nth; [apply (pairwise_nth (fun a b => rnd (a - b))); assumption|apply double_round]|].
  assert (Z : rnd (a - b) = 0 <-> a = b).
  { split; [|intros ->; rewrite Rminus_diag_eq by reflexivity; apply rnd_zero]. intros Z. destruct (Req_dec a b) as [|N]; [assumption|]. exfalso.
    assert (P53 : Prec_gt_0 53) by reflexivity.
    refine (round_plus_neq_0 radix2 (FLT_exp (-1074) 53) ZnearestE a (- b) Da _ _ Z); [apply generic_format_opp; exact Db|lra]. }
  split; [exact Z|]. split.
  - split; intros H.
    + destruct (Rlt_or_le b a) as [|L]; [assumption|]. exfalso. assert (M := rnd_mono (a - b) 0 ltac:(lra)). rewrite rnd_zero in M. lra.
    + assert (M := rnd_mono 0 (a - b) ltac:(lra)). rewrite rnd_zero in M. destruct M as [|E]; [assumption|]. symmetry in E. apply Z in E. lra.
  - intros H. apply rnd_double. apply sterbenz; [apply FLT_exp_valid; reflexivity|apply FLT_exp_monotone|exact Da|exact Db|exact H].
Qed.
Print Assumptions C113_sign.

(** C113.  Data minus themselves are exactly 0 wherever there is an intensity. *)
Theorem C113_self : forall sq l s i x n, subtract_fl sq l l = Ok s -> nth_error l i = Some (x, n) -> n <> 0 -> nth_error (read (d_detector s)) i = Some (Some 0).
Proof.
  intros sq l s i x n S E N. assert (Nl : l <> []) by (intros ->; destruct i; discriminate). destruct (largest_ok l Nl) as (r & M & _).
  assert (V : intensity_fl l = Ok (map (fun p => scaled (fst p) (snd p) r) l)) by (unfold intensity_fl; rewrite M; reflexivity).
  assert (A : nth_error (map (fun p => scaled (fst p) (snd p) r) l) i = Some (Some (rnd (rnd (x / n) * r)))).
  { rewrite (at_point _ _ _ _ E). cbn. unfold scaled. destruct (Req_EM_T n 0); [contradiction|reflexivity]. }
  destruct (C113_sign sq l l s i _ _ _ _ S V V A A) as (c & C & Z & _). rewrite C. do 2 f_equal. apply Z. reflexivity.
Qed.
Print Assumptions C113_self.
(** C113.  Where one of the two has no intensity (monitor counts of 0) the difference has none either. *)
Theorem C113_missing : forall sq l m s i x y n k, subtract_fl sq l m = Ok s -> nth_error l i = Some (x, n) -> nth_error m i = Some (y, k) -> n = 0 \/ k = 0 ->
  nth_error (read (d_detector s)) i = Some None.
Proof.
  intros sq l m s i x y n k S E F Z. unfold subtract_fl in S. unfold intensity_fl in S. destruct (largest (map snd l)) as [r|]; [|discriminate]. destruct (largest (map snd m)) as [r'|]; [|discriminate]. cbn [bind] in S.
  destruct (error_fl l) as [e1|]; [|discriminate]. destruct (error_fl m) as [e2|]; [|discriminate]. cbn [bind] in S. destruct (Nat.eqb _ _); [|discriminate]. injection S as <-. cbn [d_detector]. unfold read. rewrite nth_error_map.
  assert (A := at_point (fun p => scaled (fst p) (snd p) r) _ _ _ E). assert (B := at_point (fun p => scaled (fst p) (snd p) r') _ _ _ F). cbn [fst snd] in A, B.
  assert (P : forall v w i, nth_error v i = Some (scaled x n r) -> nth_error w i = Some (scaled y k r') -> nth_error (pairwise (fun a b => rnd (a - b)) v w) i = Some None).
  { clear - Z. induction v as [|a v IH]; intros [|b w] [|i]; cbn; try discriminate; [|apply IH]. intros [=->] [=->]. f_equal. unfold scaled. destruct Z as [-> | ->]; [destruct (Req_EM_T 0 0); [reflexivity|contradiction]|]. destruct (Req_EM_T n 0); [reflexivity|]. destruct (Req_EM_T 0 0); [reflexivity|contradiction]. }
  exact (f_equal (option_map (fun x => match x with Some x => scaled x 1 1 | None => None end)) (P _ _ i A B)).
Qed.
Print Assumptions C113_missing.
Example C113_missing_case : exists s, subtract_fl (fun x => rnd (x ^ 2)) [(1, 1); (5, 0)] [(1, 1); (2, 1)] = Ok s /\ nth_error (read (d_detector s)) 1 = Some None.
Proof.
  destruct (proj1 (C113_answers (fun x => rnd (x ^ 2)) [(1, 1); (5, 0)] [(1, 1); (2, 1)]) ltac:(discriminate) eq_refl) as (s & S & _). exists s. split; [exact S|]. apply (C113_missing _ _ _ _ 1 5 2 0 1 S eq_refl eq_refl). left. reflexivity.
Qed.

(** C113.  Accuracy: the intensity afterwards is the exact difference up to five units of the sum of both. *)
Theorem C113_accuracy : forall sq l m s i x n r y k q, subtract_fl sq l m = Ok s -> is_largest r l -> usual r -> nth_error l i = Some (x, n) -> usual n -> x = 0 \/ usual x ->
  is_largest q m -> usual q -> nth_error m i = Some (y, k) -> usual k -> y = 0 \/ usual y ->
  exists c, nth_error (read (d_detector s)) i = Some (Some c) /\ Rabs (c - (x / n * r - y / k * q)) <= 5 * / 2 ^ 53 * (x / n * r + y / k * q) + bpow radix2 (-1075).
Proof.
  intros sq l m s i x n r y k q S M Ur E Un X M' Uq E' Uk Y.
  destruct (C112_intensity l r i x n M Ur E Un X) as (v & a & V & A & Ba). destruct (C112_intensity m q i y k M' Uq E' Uk Y) as (w & b & W & B & Bb).
  assert (Pn := usual_pos n Un). assert (Pr := usual_pos r Ur). assert (Pk := usual_pos k Uk). assert (Pq := usual_pos q Uq).
  assert (X0 : 0 <= x) by (destruct X as [-> | X]; [lra|apply usual_pos in X; lra]). assert (Y0 : 0 <= y) by (destruct Y as [-> | Y]; [lra|apply usual_pos in Y; lra]).
  assert (T1 : 0 <= x / n * r) by (apply Rmult_le_pos; [apply Rmult_le_pos; [exact X0|apply Rlt_le, Rinv_0_lt_compat, Pn]|lra]).
  assert (T2 : 0 <= y / k * q) by (apply Rmult_le_pos; [apply Rmult_le_pos; [exact Y0|apply Rlt_le, Rinv_0_lt_compat, Pk]|lra]).
  set (t1 := x / n * r) in *. set (t2 := y / k * q) in *. clearbody t1 t2. fold u in Ba, Bb. fold u.
  unfold subtract_fl in S. rewrite V, W in S. cbn [bind] in S. destruct (error_fl l); [|discriminate]. destruct (error_fl m); [|discriminate]. cbn [bind] in S. destruct (Nat.eqb _ _); [|discriminate]. injection S as <-. cbn [d_detector].
  exists (rnd (a - b)). split; [apply read_nth; [apply (pairwise_nth (fun a b => rnd (a - b))); assumption|apply double_round]|].
  assert (R := rnd_error (a - b)). fold u in R. assert (U := u_small). assert (U1 : u <= / 100) by (apply Rle_trans with (1 := proj2 U); apply Rinv_le_contravar; lra).
  apply Rabs_le_inv in Ba, Bb. assert (0 <= u * t1) by (apply Rmult_le_pos; lra). assert (0 <= u * t2) by (apply Rmult_le_pos; lra).
  assert (u * t1 <= / 100 * t1) by (apply Rmult_le_compat_r; lra). assert (u * t2 <= / 100 * t2) by (apply Rmult_le_compat_r; lra).
  assert (D : Rabs (a - b) <= 103 / 100 * (t1 + t2)) by (apply Rabs_le; lra). assert (u * Rabs (a - b) <= u * (103 / 100 * (t1 + t2))) by (apply Rmult_le_compat_l; lra).
  apply Rabs_le_inv in R. apply Rabs_le. lra.
Qed.
Print Assumptions C113_accuracy.

(** A power function whose squares are right to two units, or to half of the smallest double when they are tiny. *)
Definition squares (sq : R -> R) : Prop := sq 0 = 0 /\ forall x, Rabs (sq x - x ^ 2) <= 2 * / 2 ^ 53 * x ^ 2 + bpow radix2 (-1075).
Lemma sqrt_within m t d : 0 < m -> 0 <= d <= / 2 -> Rabs (t - m ^ 2) <= 2 * d * m ^ 2 -> Rabs (sqrt t - m) <= 2 * d * m.
Proof.
  intros M D H. apply Rabs_le_inv in H. assert (M2 : 0 < m ^ 2) by (apply pow_lt, M). assert (T0 : 0 <= t) by nra. assert (S0 := sqrt_pos t). assert (S := sqrt_sqrt t T0). set (s := sqrt t) in *. clearbody s.
  assert (P : Rabs (s - m) * (s + m) <= 2 * d * m ^ 2). { rewrite <- (Rabs_right (s + m)) by lra. rewrite <- Rabs_mult. apply Rabs_le. replace ((s - m) * (s + m)) with (t - m ^ 2) by (rewrite <- S; ring). lra. }
  apply (Rmult_le_reg_r (s + m)); [lra|]. apply Rle_trans with (1 := P). assert (0 <= d * m) by (apply Rmult_le_pos; lra). nra.
Qed.
(** C113.  The error afterwards is the larger of the two errors up to four units. *)
Theorem C113_error : forall sq l m s i v w a b, squares sq -> subtract_fl sq l m = Ok s -> error_fl l = Ok v -> error_fl m = Ok w -> nth_error v i = Some (Some a) -> nth_error w i = Some (Some b) ->
  0 <= a -> 0 <= b -> (Rmax a b = 0 \/ bpow radix2 (-300) <= Rmax a b) ->
  exists c, nth_error (read (d_err s)) i = Some (Some c) /\ Rabs (c - Rmax a b) <= 4 * / 2 ^ 53 * Rmax a b.
Proof.
  intros sq l m s i v w a b [Sz Sq] S V W A B A0 B0 Mx. unfold subtract_fl in S. rewrite V, W in S. cbn [bind] in S. destruct (intensity_fl l); [|discriminate]. destruct (intensity_fl m); [|discriminate]. cbn [bind] in S. destruct (Nat.eqb _ _); [|discriminate]. injection S as <-. cbn [d_err].
  exists (rnd (sqrt (larger (sq a) (sq b)))). split; [apply read_nth; [apply (pairwise_nth (fun a b => rnd (sqrt (larger (sq a) (sq b))))); assumption|apply double_round]|].
  assert (U := u_small). assert (U1 : u <= / 100) by (apply Rle_trans with (1 := proj2 U); apply Rinv_le_contravar; lra). fold u. assert (Sa := Sq a). assert (Sb := Sq b). fold u in Sa, Sb.
  set (M := Rmax a b) in *. assert (Ma : a <= M) by apply Rmax_l. assert (Mb : b <= M) by apply Rmax_r. assert (Mm : M = a \/ M = b) by (unfold M, Rmax; destruct (Rle_dec a b); auto).
  assert (A2 : a ^ 2 <= M ^ 2) by (apply pow_incr; lra). assert (B2 : b ^ 2 <= M ^ 2) by (apply pow_incr; lra).
  destruct Mx as [Z|P].
  - assert (Za : a = 0) by lra. assert (Zb : b = 0) by lra. rewrite Z, Za, Zb, Sz. replace (larger 0 0) with 0 by (unfold larger; destruct (Rle_dec 0 0); reflexivity). rewrite sqrt_0, rnd_zero, Rminus_0_r, Rabs_R0. lra.
  - assert (Pm : 0 < M) by (assert (Q := bpow_gt_0 radix2 (-300)); lra).
    assert (M600 : bpow radix2 (-600) <= M ^ 2). { replace (bpow radix2 (-600)) with (bpow radix2 (-300) ^ 2); [apply pow_incr; split; [apply bpow_ge_0|exact P]|]. cbn [pow]. rewrite Rmult_1_r, <- bpow_plus. reflexivity. }
    assert (Ti : bpow radix2 (-1075) <= / 10 * (u * M ^ 2)).
    { apply Rle_trans with (/ 10 * (u * bpow radix2 (-600))); [|apply Rmult_le_compat_l; [lra|apply Rmult_le_compat_l; lra]]. replace u with (bpow radix2 (-53)) by (unfold u; cbn; lra). rewrite <- bpow_plus.
      apply Rle_trans with (/ 16 * bpow radix2 (-53 + -600)); [|apply Rmult_le_compat_r; [apply bpow_ge_0|lra]]. replace (/ 16) with (bpow radix2 (-4)) by (cbn; lra). rewrite <- bpow_plus. apply bpow_le. lia. }
    assert (T : Rabs (larger (sq a) (sq b) - M ^ 2) <= 2 * (11 / 10 * u) * M ^ 2).
  { destruct (larger_ge (sq a) (sq b)) as [La Lb]. assert (Le : larger (sq a) (sq b) = sq a \/ larger (sq a) (sq b) = sq b) by (unfold larger; destruct (Rle_dec (sq a) (sq b)); auto).
    set (g := larger (sq a) (sq b)) in *. clearbody g. apply Rabs_le_inv in Sa, Sb. assert (u * a ^ 2 <= u * M ^ 2) by (apply Rmult_le_compat_l; lra). assert (u * b ^ 2 <= u * M ^ 2) by (apply Rmult_le_compat_l; lra).
    apply Rabs_le. split; [destruct Mm as [-> | ->]; lra|destruct Le as [-> | ->]; lra]. }
    assert (R := sqrt_within M _ (11 / 10 * u) Pm ltac:(lra) T). set (t := sqrt _) in *. clearbody t.
    assert (uM : u * M <= / 100 * M) by (apply Rmult_le_compat_r; lra). apply Rabs_le_inv in R.
    assert (Pt : M / 2 <= t) by lra. assert (E : Rabs (rnd t - t) <= 5 / 4 * u * t).
    { rewrite <- (Rabs_right t) at 3 by lra. apply rel. rewrite Rabs_right by lra. apply Rle_trans with (2 := Pt). apply Rle_trans with (bpow radix2 (-300) / 2); [|lra].
      replace (bpow radix2 (-300) / 2) with (bpow radix2 (-301)); [apply bpow_le; lia|]. change (-301)%Z with (-300 + -1)%Z. rewrite bpow_plus. reflexivity. }
    apply Rabs_le_inv in E. assert (u * t <= 103 / 100 * (u * M)) by nra. apply Rabs_le. lra.
Qed.
Print Assumptions C113_error.

(** The correctly rounded square meets the condition. *)
Example C113_case : squares (fun x => rnd (x ^ 2)).
Proof.
  split; [rewrite pow_ne_zero by discriminate; apply rnd_zero|]. intros x. assert (P := pow2_ge_0 x). assert (E := rnd_error (x ^ 2)). fold u in E. fold u. rewrite (Rabs_right (x ^ 2)) in E by lra.
  assert (0 <= u * x ^ 2) by (apply Rmult_le_pos; [apply Rlt_le, u_small|exact P]). lra.
Qed.
(** Ten and seven counts at monitor 100. *)
Example C113_case2 : exists s, subtract_fl (fun x => rnd (x ^ 2)) [(10, 100); (3, 100)] [(7, 100); (3, 100)] = Ok s /\ nth_error (read (d_detector s)) 1 = Some (Some 0).
Proof.
  destruct (C113_answers (fun x => rnd (x ^ 2)) [(10, 100); (3, 100)] [(7, 100); (3, 100)]) as [H _]. destruct H as (s & S & _); [discriminate|reflexivity|]. exists s. split; [exact S|].
  assert (M : is_largest 100 [(10, 100); (3, 100)]). { split; [exists (3, 100); split; [right; left; reflexivity|reflexivity]|]. intros p [<-|[<-|[]]]; cbn; lra. }
  assert (M' : is_largest 100 [(7, 100); (3, 100)]). { split; [exists (3, 100); split; [right; left; reflexivity|reflexivity]|]. intros p [<-|[<-|[]]]; cbn; lra. }
  assert (V : intensity_fl [(10, 100); (3, 100)] = Ok (map (fun p => scaled (fst p) (snd p) 100) [(10, 100); (3, 100)])) by (unfold intensity_fl; rewrite (largest_is _ _ M); reflexivity).
  assert (W : intensity_fl [(7, 100); (3, 100)] = Ok (map (fun p => scaled (fst p) (snd p) 100) [(7, 100); (3, 100)])) by (unfold intensity_fl; rewrite (largest_is _ _ M'); reflexivity).
  assert (A : scaled 3 100 100 = Some (rnd (rnd (3 / 100) * 100))) by (unfold scaled; destruct (Req_EM_T 100 0); [lra|reflexivity]).
  destruct (C113_sign _ _ _ s 1 _ _ (rnd (rnd (3 / 100) * 100)) (rnd (rnd (3 / 100) * 100)) S V W) as (c & C & Z & _); [cbn; rewrite A; reflexivity|cbn; rewrite A; reflexivity|].
  rewrite C. do 2 f_equal. apply Z. reflexivity.
Qed.

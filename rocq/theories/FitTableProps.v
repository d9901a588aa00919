(** C88: the table of fitted parameters. *)
From Coq Require Import List ZArith Reals Lia Lra Psatz.
From Verif Require Import Base DescribeModel DescribeProps FitTableModel.
Import ListNotations.
Local Open Scope R_scope.

Lemma ln10 : 0 < ln 10.
Proof. rewrite <- ln_1. apply ln_increasing; lra. Qed.
Lemma ten_pow (z : Z) : 0 < powerRZ 10 z.
Proof. apply powerRZ_lt. lra. Qed.
Lemma ln_ten z : ln (powerRZ 10 z) = IZR z * ln 10.
Proof.
  assert (N : forall n, ln (10 ^ n) = INR n * ln 10). { induction n as [|n IH]; [simpl; rewrite ln_1; ring|]. cbn [pow]. rewrite ln_mult by (try apply pow_lt; lra). rewrite IH, S_INR. ring. }
  destruct z as [|p|p]; cbn [powerRZ]; [rewrite ln_1; ring|rewrite N, INR_IPR; reflexivity|]. rewrite ln_Rinv by (apply pow_lt; lra). rewrite N, INR_IPR. change (IZR (Z.neg p)) with (- IPR p). ring.
Qed.
Lemma ten_le a b : (a <= b)%Z -> powerRZ 10 a <= powerRZ 10 b.
Proof. intros L. destruct (Z.eq_dec a b) as [->|N]; [lra|]. apply Rlt_le, ln_lt_inv; try apply ten_pow. rewrite !ln_ten. apply Rmult_lt_compat_r; [apply ln10|]. apply IZR_lt. lia. Qed.
(** The decade of a number. *)
Definition in_decade (k : Z) (x : R) : Prop := powerRZ 10 k <= Rabs x < powerRZ 10 (k + 1).
Lemma decade_ok x : x <> 0 -> exists k, decade x = Some k /\ in_decade k x.
Proof.
  intros N. unfold decade. destruct (Req_EM_T x 0); [contradiction|]. eexists. split; [reflexivity|]. assert (P := Rabs_pos_lt x N). set (y := ln (Rabs x) / ln 10). assert (L := ln10).
  assert (E : ln (Rabs x) = y * ln 10) by (unfold y; field; lra). destruct (base_Int_part y) as [A B]. split.
  - apply Rnot_lt_le. intros C. apply ln_increasing in C; [|exact P]. rewrite ln_ten, E in C. nra.
  - apply ln_lt_inv; [exact P|apply ten_pow|]. rewrite ln_ten, E, plus_IZR. nra.
Qed.
Lemma decade_unique x k k' : in_decade k x -> in_decade k' x -> k = k'.
Proof.
  intros [A B] [A' B']. assert (C : forall a b, powerRZ 10 a < powerRZ 10 b -> (a < b)%Z). { intros a b C. apply ln_increasing in C; [|apply ten_pow]. rewrite !ln_ten in C. apply lt_IZR. assert (L := ln10). nra. }
  assert (C1 := C k (k' + 1)%Z ltac:(lra)). assert (C2 := C k' (k + 1)%Z ltac:(lra)). lia.
Qed.
Lemma in_decade_nz k x : in_decade k x -> x <> 0.
Proof. intros [A _] ->. rewrite Rabs_R0 in A. assert (P := ten_pow k). lra. Qed.
Lemma decade_of k x : in_decade k x -> decade x = Some k.
Proof. intros D. destruct (decade_ok x (in_decade_nz k x D)) as [k' [E D']]. rewrite E. f_equal. eapply decade_unique; eauto. Qed.

Lemma sci_near k n x : in_decade k x -> exists z, sci n x = IZR z * powerRZ 10 (k - n) /\ Rabs (sci n x - x) <= powerRZ 10 (k - n) / 2.
Proof.
  intros D. unfold sci. rewrite (decade_of k x D). cbv zeta. set (u := powerRZ 10 (k - n)). assert (P : 0 < u) by apply ten_pow. eexists. split; [reflexivity|]. assert (H := nearest_near (x / u)).
  replace (IZR (nearest (x / u)) * u - x) with ((IZR (nearest (x / u)) - x / u) * u) by (field; lra). rewrite Rabs_mult, (Rabs_right u) by lra. nra.
Qed.

(** One line of the table: parameter [p] with the error [s], printed as [v] and [e]. *)
Definition line_ok (p s v e : R) : Prop := forall k, in_decade k s ->
  (exists z, e = IZR z * powerRZ 10 (k - 1)) /\ Rabs (e - s) <= powerRZ 10 (k - 1) / 2 /\
  (powerRZ 10 k <= Rabs p -> (exists z, v = IZR z * powerRZ 10 (k - 1)) /\ Rabs (v - p) <= powerRZ 10 (k - 1) / 2) /\
  (Rabs p < powerRZ 10 k -> Rabs (v - p) <= Rabs p / 200).
Lemma row_ok p s : s <> 0 -> exists n, n_dec p s = Some n /\ line_ok p s (sci n p) (sci 1 s).
Proof.
  intros N. destruct (decade_ok s N) as [k [Ek Dk]]. unfold n_dec. rewrite Ek. destruct (Req_EM_T p 0) as [->|Np].
  - assert (E0 : decade 0 = None) by (unfold decade; destruct (Req_EM_T 0 0); [reflexivity|contradiction]). rewrite E0. exists 2%Z. split; [reflexivity|]. intros k' D'. assert (k' = k) by (eapply decade_unique; eauto). subst k'.
    destruct (sci_near k 1 s Dk) as (z & E & B). split; [exists z; exact E|]. split; [exact B|]. rewrite Rabs_R0. assert (P := ten_pow k). split; [intros; lra|]. intros _. unfold sci. rewrite E0. replace (0 - 0) with 0 by ring. rewrite Rabs_R0. lra.
  - destruct (decade_ok p Np) as [a [Ea Da]]. rewrite Ea. eexists. split; [reflexivity|]. intros k' D'. assert (k' = k) by (eapply decade_unique; eauto). subst k'.
    destruct (sci_near k 1 s Dk) as (z & E & B). split; [exists z; exact E|]. split; [exact B|]. split.
    + intros L. assert (A : (k <= a)%Z). { destruct (Z_le_gt_dec k a); auto. exfalso. destruct Da as [_ D2]. assert (T := ten_le (a + 1) k ltac:(lia)). lra. }
      destruct (Z.ltb_spec (a - k + 1) 1); [lia|]. destruct (sci_near a (a - k + 1) p Da) as (z' & E' & B'). replace (a - (a - k + 1))%Z with (k - 1)%Z in * by ring. split; [exists z'; exact E'|exact B'].
    + intros L. assert (A : (a < k)%Z). { destruct (Z_lt_ge_dec a k); auto. exfalso. destruct Da as [D2 _]. assert (T := ten_le k a ltac:(lia)). lra. }
      destruct (Z.ltb_spec (a - k + 1) 1); [|lia]. destruct (sci_near a 2 p Da) as (z' & E' & B'). eapply Rle_trans; [exact B'|]. destruct Da as [D1 _]. unfold Z.sub. rewrite powerRZ_add by lra. replace (powerRZ 10 (- (2))) with (/ 100) by (simpl; lra). lra.
Qed.

(** With an error above zero for every parameter, the error is printed with two digits, and a parameter as large as the decade of its
    error down to the same decimal place: within a twentieth of the error; a smaller parameter is printed with three digits. *)
Theorem C88_table : forall ps es chi, List.length ps = List.length es -> Forall (fun s => s <> 0) es -> exists l c,
  table ps (map Some es) chi = Ok (l, c) /\ List.length l = List.length ps /\ stands 6 c chi /\
  forall i p s v e, nth_error ps i = Some p -> nth_error es i = Some s -> nth_error l i = Some (v, e) ->
    line_ok p s v e /\ Rabs (e - s) <= Rabs s / 20 /\ Rabs (v - p) <= Rmax (Rabs s / 20) (Rabs p / 200).
Proof.
  intros ps es chi. assert (A : forall y : list R, all_some (map Some y) = Some y) by (induction y as [|x l IH]; [reflexivity|cbn [map all_some fold_right]; unfold all_some in IH; rewrite IH; reflexivity]).
  intros L F. unfold table. rewrite A. assert (R : exists l, rows ps es = Ok l /\ List.length l = List.length ps /\ forall i p s v e, nth_error ps i = Some p -> nth_error es i = Some s -> nth_error l i = Some (v, e) -> s <> 0 /\ line_ok p s v e).
  { clear chi A. revert es L F. induction ps as [|p ps IH]; intros [|s es] L F; try discriminate.
    - exists []. repeat split; destruct i; discriminate.
    - apply Forall_inv in F as Fs. apply Forall_inv_tail in F. injection L as L. destruct (IH es L F) as (l & E & Ll & H). destruct (row_ok p s Fs) as (n & En & Ok1). exists ((sci n p, sci 1 s) :: l). cbn [rows]. rewrite En, E. cbn [bind]. split; [reflexivity|]. split; [cbn [List.length]; rewrite Ll; reflexivity|].
      intros [|i] p' s' v e H1 H2 H3; [|eapply H; eauto]. cbn in H1, H2, H3. injection H1 as <-. injection H2 as <-. injection H3 as <- <-. split; auto. }
  destruct R as (l & E & Ll & H). rewrite E. cbn [bind]. exists l, (fixed 6 chi). split; [reflexivity|]. split; [exact Ll|]. split; [apply fixed_near|]. intros i p s v e H1 H2 H3. destruct (H i p s v e H1 H2 H3) as [N K]. split; [exact K|].
  destruct (decade_ok s N) as [k [_ D]]. destruct (K k D) as (_ & B & C & S). destruct D as [D1 D2]. assert (T : powerRZ 10 (k - 1) / 2 <= Rabs s / 20). { unfold Z.sub. rewrite powerRZ_add by lra. replace (powerRZ 10 (- (1))) with (/ 10) by (simpl; lra). lra. }
  split; [lra|]. destruct (Rle_dec (powerRZ 10 k) (Rabs p)) as [G|G].
  - destruct (C G) as [_ G']. eapply Rle_trans; [|apply Rmax_l]. lra.
  - eapply Rle_trans; [|apply Rmax_r]. apply S. lra.
Qed.
Print Assumptions C88_table.
Example C88_case : exists l c, table [314; 0] [Some (5 / 10); Some 2] 7 = Ok (l, c) /\ List.length l = 2%nat.
Proof. destruct (C88_table [314; 0] [5 / 10; 2] 7 eq_refl) as (l & c & E & L & _); [repeat constructor; lra|]. exists l, c. split; [exact E|exact L]. Qed.

(** No table if an error is missing, or if one vanishes, as that of a parameter kept fixed does. *)
Theorem C88_no_table : forall ps es chi, List.length ps = List.length es ->
  (In None es -> table ps es chi = Err TypeError) /\ (~ In None es -> In (Some 0) es -> table ps es chi = Err ValueError).
Proof.
  intros ps es chi L. unfold table. split.
  - intros I. assert (E : all_some es = None). { clear L. induction es as [|x es IH]; [contradiction|]. cbn [all_some fold_right]. fold (all_some es). destruct I as [->|I]; [reflexivity|]. rewrite (IH I). destruct x; reflexivity. } rewrite E. reflexivity.
  - intros N I. assert (E : exists l, all_some es = Some l /\ map Some l = es). { clear L I. induction es as [|x es IH]; [exists []; auto|]. destruct x as [a|]; [|exfalso; apply N; left; reflexivity]. destruct IH as (l & E & M); [intros J; apply N; right; exact J|]. exists (a :: l). cbn [all_some fold_right map]. fold (all_some es). rewrite E, M. auto. }
    destruct E as (l & E & <-). rewrite E. clear E N. rewrite map_length in L. apply in_map_iff in I. destruct I as (z & Z0 & I). injection Z0 as ->.
    assert (Rw : rows ps l = Err ValueError). { revert l L I. induction ps as [|p ps IH]; intros [|s l] L I; try discriminate; try contradiction. cbn [rows]. unfold n_dec. destruct (Req_EM_T s 0) as [->|Ns].
      - replace (decade 0) with (@None Z) by (unfold decade; destruct (Req_EM_T 0 0); [reflexivity|contradiction]). destruct (decade p); reflexivity.
      - destruct I as [->|I]; [contradiction|]. injection L as L. rewrite (IH l L I). destruct (decade p), (decade s); reflexivity. }
    rewrite Rw. reflexivity.
Qed.
Print Assumptions C88_no_table.
Example C88_no_table_case : table [1; 2] [Some (1 / 10); Some 0] 5 = Err ValueError.
Proof. apply (C88_no_table [1; 2] [Some (1 / 10); Some 0] 5 eq_refl); cbn [In]; [intros [H|[H|[]]]; discriminate|auto]. Qed.

(** Properties of peak analysis (C12, C13, C14) and detailed balance (C15). *)
From Coq Require Import String List QArith Qabs Qround Bool Arith Lia Lqa ZArith Permutation Sorted.
From Verif Require Import Base DataModel DataSpec DataProof CombineProof OpsModel OpsSpec OpsProof AnalysisModel AnalysisProof.
From Coq Require Reals Lra.
From Verif Require BalanceModel.
Import ListNotations.
Local Open Scope string_scope.

(** C12.  The simple specifications. *)
Theorem C12_simple_backgrounds : forall inten q t,
  estimate_background inten BgNone = Ok (Some 0) /\
  estimate_background inten (BgNumber q) = Ok (Some q) /\
  estimate_background inten (BgConstant q) = Ok (Some q) /\
  estimate_background inten (BgOther t) = Ok (Some 0) /\
  match estimate_background inten BgMinimum with
  | Ok (Some m) => In m inten /\ Forall (fun y => m <= y) inten
  | Ok None => False
  | Err e => inten = [] /\ e = ValueError
  end.
Proof.
  intros inten q t. repeat (split; [reflexivity|]). simpl. destruct inten as [|x l]; auto. apply list_min_spec.
Qed.
Print Assumptions C12_simple_backgrounds.

(** C12.  'percent': the mean of the requested share of lowest non-negative intensities; no number
    if that share is no point at all. *)
Theorem C12_percent_mean_of_lowest : forall inten v,
  let nonneg := filter (fun x => Qle_bool 0 x) inten in
  exists lows, lowest (n_lowest (length nonneg) v) nonneg lows /\
    match estimate_background inten (BgPercent v) with
    | Ok (Some m) => lows <> [] /\ m * inject_Z (Z.of_nat (length lows)) == Qsum lows
    | Ok None => lows = []
    | Err _ => False
    end.
Proof.
  intros inten v nonneg. exists (firstn (n_lowest (length nonneg) v) (sort_q nonneg)). split; [apply firstn_lowest|].
  unfold estimate_background. fold nonneg.
  destruct (qavg _) as [m|] eqn:E.
  - now apply qavg_some in E.
  - unfold qavg in E. destruct (firstn _ _); [reflexivity|discriminate].
Qed.
Print Assumptions C12_percent_mean_of_lowest.

(** C12.  It lies between any bounds of the non-negative intensities; in particular it is not
    negative. *)
Theorem C12_percent_bounded : forall inten v m lo hi,
  estimate_background inten (BgPercent v) = Ok (Some m) ->
  (forall x, In x inten -> 0 <= x -> lo <= x /\ x <= hi) -> lo <= m /\ m <= hi.
Proof.
  intros inten v m lo hi E H. simpl in E. inversion E as [E']. clear E.
  apply (avg_bounds lo hi _ _ E'). rewrite Forall_forall. intros x Hx. apply firstn_in in Hx.
  apply (Permutation_in _ (sort_q_perm _)) in Hx. apply filter_In in Hx. destruct Hx as [Hx Hn].
  apply H; auto. now apply Qle_bool_iff.
Qed.
Print Assumptions C12_percent_bounded.

(** C12.  It never decreases with the percentage. *)
Theorem C12_percent_monotone : forall inten v w a b, v <= w ->
  estimate_background inten (BgPercent v) = Ok (Some a) ->
  estimate_background inten (BgPercent w) = Ok (Some b) -> a <= b.
Proof.
  intros inten v w a b H Ea Eb. simpl in Ea, Eb. inversion Ea as [Ea']. inversion Eb as [Eb'].
  eapply prefix_avg_mono; [| |exact Ea'|exact Eb'].
  - apply sorted_strong, sort_q_sorted.
  - now apply n_lowest_mono.
Qed.
Print Assumptions C12_percent_monotone.
Example C12_ex : estimate_background [5; - 1; 3; 9; 4] (BgPercent 50) = Ok (Some (7 # 2)) /\
  (exists b, estimate_background [5; - 1; 3; 9; 4] (BgPercent 80) = Ok (Some b) /\ b == 4).
Proof. split; [reflexivity|]. eexists; split; reflexivity. Qed.

(** C12.  A share below one point gives no number. *)
Theorem C12_percent_defined_refuted : exists inten v, inten <> [] /\ 0 < v /\
  Forall (fun x => 0 <= x) inten /\ estimate_background inten (BgPercent v) = Ok None.
Proof. exists [1; 2; 3], 30. repeat split; try discriminate. repeat constructor; discriminate. Qed.
Print Assumptions C12_percent_defined_refuted.

(** C13.  With bounds=None the selected entries of a column are those at points with non-zero h. *)
Theorem C13_default_selection : forall d (l : list Q), length l = length (first_coord d) ->
  select (get_bounds d None) l =
  map snd (filter (fun p => negb (Qeq_bool (fst p) 0)) (List.combine (first_coord d) l)).
Proof.
  intros d l. simpl. generalize (first_coord d) as h. intros h. revert l.
  induction h as [|x h IH]; intros [|y l] L; simpl in *; try lia; auto.
  destruct (Qeq_bool x 0); simpl; rewrite IH by lia; auto.
Qed.
Print Assumptions C13_default_selection.

(** C13.  If h is zero throughout the integrated intensity is 0 whatever was measured. *)
Theorem C13_zero_h_loses_everything : forall d bg hkle, Forall (fun x => x == 0) (first_coord d) ->
  integrate d None bg hkle == 0.
Proof.
  intros d bg hkle H. unfold integrate.
  assert (E : net d None bg = []).
  { unfold net. simpl get_bounds. generalize (a_int d) as l. induction H as [|x h Hx H IH]; intros l; simpl; auto.
    replace (Qeq_bool x 0) with true by (symmetry; now apply Qeq_bool_iff). simpl. destruct l; auto. }
  rewrite E. induction (get_keys d hkle); simpl; [reflexivity|]. rewrite IHl. reflexivity.
Qed.
Print Assumptions C13_zero_h_loses_everything.

Definition acols (h k a3 : list Q) : columns :=
  [("h", h); ("k", k); ("l", map (fun _ => 0) h); ("e", map (fun _ => 0) h); ("temp", map (fun _ => 5) h);
   ("detector", map (fun _ => 1) h); ("monitor", map (fun _ => 1) h); ("time", map (fun _ => 1) h); ("a3", a3)].
Definition aex (h k a3 inten : list Q) : adata :=
  mkA (acols h k a3) ["h"; "k"; "l"; "e"; "temp"] ["detector"; "monitor"; "time"] inten.

(** C13.  Using all points is expected; a peak centred at h = 0 loses its central point. *)
Theorem C13_all_points_used_refuted : exists d, length (a_int d) = 3%nat /\
  ~ select (get_bounds d None) (a_int d) = a_int d.
Proof. exists (aex [- 1; 0; 1] [0; 0; 0] [0; 0; 0] [1; 8; 1]). split; [reflexivity|]. intros H. discriminate H. Qed.
Print Assumptions C13_all_points_used_refuted.
Example C13_ex : exists d, Forall (fun x => x == 0) (first_coord d) /\ a_int d = [1; 8; 1].
Proof. exists (aex [0; 0; 0] [1; 2; 3] [0; 0; 0] [1; 8; 1]). split; [repeat constructor|reflexivity]. Qed.

(** C14.  Position lies between the smallest and largest selected coordinate. *)
Theorem C14_position_in_range : forall d b bg k p lo hi,
  position d b bg true k = Some p -> length (acol d k) = length (a_int d) ->
  Forall (Sorted Qle) (map (scol d b) (get_keys d true)) -> Forall (fun x => 0 <= x) (net d b bg) ->
  0 < integrate d b bg true -> Forall (fun x => lo <= x /\ x <= hi) (scol d b k) -> lo <= p /\ p <= hi.
Proof.
  intros d b bg k p lo hi M L S W P F. apply (moment_bounds d b bg (scol d b k)); auto.
  now apply scol_net_length.
Qed.
Print Assumptions C14_position_in_range.

(** C14.  Shifting a coordinate column shifts the position by the same amount (explicit bounds). *)
Theorem C14_position_shift : forall d bs bg k s p p', length (acol d k) = length (a_int d) ->
  position d (Some bs) bg true k = Some p -> position (shift_col k s d) (Some bs) bg true k = Some p' -> p' == p + s.
Proof. exact position_shift. Qed.
Print Assumptions C14_position_shift.

(** C14.  The squared width is not negative. *)
Theorem C14_width_nonneg : forall d b bg k w, length (acol d k) = length (a_int d) ->
  Forall (Sorted Qle) (map (scol d b) (get_keys d true)) -> Forall (fun x => 0 <= x) (net d b bg) ->
  0 < integrate d b bg true -> width_sq d b bg true k = Some w -> 0 <= w.
Proof. exact width_nonneg. Qed.
Print Assumptions C14_width_nonneg.

(** C14.  Without further columns it is at most the squared extent and unchanged by a shift. *)
Theorem C14_width_bounded : forall d b bg k w lo hi, length (acol d k) = length (a_int d) -> get_keys d true = get_keys d false ->
  Forall (Sorted Qle) (map (scol d b) (get_keys d true)) -> Forall (fun x => 0 <= x) (net d b bg) ->
  0 < integrate d b bg true -> Forall (fun x => lo <= x /\ x <= hi) (scol d b k) ->
  width_sq d b bg true k = Some w -> w <= (hi - lo) * (hi - lo).
Proof. exact width_bounded. Qed.
Print Assumptions C14_width_bounded.
Theorem C14_width_shift : forall d bs bg k s w w', length (acol d k) = length (a_int d) -> get_keys d true = get_keys d false ->
  width_sq d (Some bs) bg true k = Some w -> width_sq (shift_col k s d) (Some bs) bg true k = Some w' -> w' == w.
Proof. exact width_shift. Qed.
Print Assumptions C14_width_shift.

Definition aex0 : adata := mkA (removelast (acols [1; 2; 3; 4] [0; 0; 0; 0] [])) ["h"; "k"; "l"; "e"; "temp"]
                               ["detector"; "monitor"; "time"] [1; 9; 5; 1].
Definition all4 := Some [true; true; true; true].
Example C14_ex : get_keys aex0 true = get_keys aex0 false /\ length (acol aex0 "h") = length (a_int aex0) /\
  Forall (Sorted Qle) (map (scol aex0 all4) (get_keys aex0 true)) /\
  Forall (fun x => 0 <= x) (net aex0 all4 1) /\ 0 < integrate aex0 all4 1 true /\
  (exists p, position aex0 all4 1 true "h" = Some p /\ p == 28 # 12) /\
  (exists w, width_sq aex0 all4 1 true "h" = Some w /\ w == 2 # 9).
Proof.
  split; [reflexivity|]. split; [reflexivity|]. split.
  - repeat constructor; vm_compute; discriminate.
  - split; [repeat constructor; vm_compute; discriminate|]. split; [reflexivity|].
    split; eexists; split; reflexivity.
Qed.

(** C14.  With one more varying column (here a motor angle) the position under hkle=False leaves the
    range of the data, and width, which uses it as centre, is no longer the spread: it exceeds the
    squared extent. *)
Theorem C14_further_columns_refuted : exists d p w,
  Forall (Sorted Qle) (map (scol d all4) (get_keys d false)) /\ Forall (fun x => 0 <= x) (net d all4 0) /\
  0 < integrate d all4 0 true /\ Forall (fun x => 1 <= x /\ x <= 4) (scol d all4 "h") /\
  position d all4 0 false "h" = Some p /\ 4 < p /\
  width_sq d all4 0 true "h" = Some w /\ ~ w <= (4 - 1) * (4 - 1).
Proof.
  exists (aex [1; 2; 3; 4] [0; 0; 0; 0] [10; 20; 30; 40] [1; 9; 5; 1]). do 2 eexists. split.
  - repeat constructor; vm_compute; discriminate.
  - split; [repeat constructor; vm_compute; discriminate|]. split; [reflexivity|].
    split; [repeat constructor; vm_compute; discriminate|]. split; [vm_compute; reflexivity|].
    split; [reflexivity|]. split; [vm_compute; reflexivity|]. vm_compute. intros H. apply H. reflexivity.
Qed.
Print Assumptions C14_further_columns_refuted.

(** C14.  Integrated intensity is a sum over all coordinates: a scan along (h, -h) has integral 0
    although every intensity is positive. *)
Theorem C14_positive_integral_refuted : exists d,
  Forall (fun x => 0 < x) (net d all4 0) /\ integrate d all4 0 true == 0 /\ position d all4 0 true "h" = None.
Proof.
  exists (aex [1; 2; 3; 4] [- 1; - 2; - 3; - 4] [0; 0; 0; 0] [1; 9; 5; 1]).
  split; [repeat constructor|]. split; reflexivity.
Qed.
Print Assumptions C14_positive_integral_refuted.

(** C14.  With bounds=None even the shift law fails, since the selection depends on h. *)
Theorem C14_default_bounds_shift_refuted : exists d s p p',
  position d None 0 true "h" = Some p /\ position (shift_col "h" s d) None 0 true "h" = Some p' /\ ~ p' == p + s.
Proof.
  exists (aex [1; 2; 3; 4] [0; 0; 0; 0] [0; 0; 0; 0] [1; 9; 5; 1]), (- (1)). do 2 eexists.
  split; [vm_compute; reflexivity|]. split; [vm_compute; reflexivity|]. intros H. discriminate H.
Qed.
Print Assumptions C14_default_bounds_shift_refuted.

(** C14.  A background lowers each column's contribution to the integral by background times the
    length of the selected interval. *)
Definition extent (l : list Q) : Q := last l 0 - hd 0 l.
Lemma trapz_shift bg : forall y x, length y = length x ->
  trapz (map (fun i => i - bg) y) x == trapz (map (fun i => i - 0) y) x - bg * extent x.
Proof.
  unfold extent. induction y as [|y0 [|y1 y] IH]; intros [|x0 [|x1 x]] L; simpl in L; try lia; try (cbn; ring).
  specialize (IH (x1 :: x) ltac:(simpl; lia)). cbn [map trapz hd] in *.
  change (last (x0 :: x1 :: x) 0) with (last (x1 :: x) 0). rewrite IH.
  unfold Qdiv. change (/ 2) with (1 # 2). ring.
Qed.
Lemma select_len {A B} b (l : list A) (l' : list B) : length l = length l' -> length (select b l) = length (select b l').
Proof. revert l l'. induction b as [|[] b IH]; intros [|x l] [|y l'] L; simpl in *; try lia; auto. Qed.
Theorem C14_background_lowers_integral : forall d b bg hkle,
  (forall k, In k (get_keys d hkle) -> length (acol d k) = length (a_int d)) ->
  integrate d b bg hkle == integrate d b 0 hkle - bg * fold_right Qplus 0 (map (fun k => extent (scol d b k)) (get_keys d hkle)).
Proof.
  intros d b bg hkle H. unfold integrate, net. induction (get_keys d hkle) as [|k ks IH]; cbn [map fold_right]; [ring|].
  rewrite IH by (intros; apply H; now right). rewrite trapz_shift; [ring|]. apply select_len. symmetry. apply H. now left.
Qed.
Print Assumptions C14_background_lowers_integral.
(** C14.  The columns integrated over: the coordinate columns, or with hkle=False all but detector,
    monitor and time. *)
Theorem C14_integration_columns : forall d k,
  (In k (get_keys d true) <-> In k (map fst (a_cols d)) /\ In k (a_q d)) /\
  (In k (get_keys d false) <-> In k (map fst (a_cols d)) /\ ~ In k (a_d d)).
Proof.
  intros d k. unfold get_keys. rewrite !filter_In.
  assert (M : forall l, mem k l = true <-> In k l).
  { intros l. unfold mem. rewrite existsb_exists. split; [intros (y & Hy & E); apply String.eqb_eq in E; now subst|].
    intros Hk. exists k. split; auto. apply String.eqb_refl. }
  split; [now rewrite M|]. split; intros [H1 H2]; split; auto.
  - intros Hk. apply M in Hk. rewrite Hk in H2. discriminate.
  - destruct (mem k (a_d d)) eqn:E; auto. apply M in E. tauto.
Qed.
Print Assumptions C14_integration_columns.
(** ** C15 *)
Section Balance.
Import Reals Lra BalanceModel.
Local Open Scope R_scope.

Lemma kB_pos : 0 < kB. Proof. unfold kB. lra. Qed.

(** C15.  The factor at -E is -exp(E/kT) times the factor at E. *)
Theorem C15_factor_reflection : forall E T, 0 < T ->
  detailed_balance_factor (- E) T = - exp (E / (kB * T)) * detailed_balance_factor E T.
Proof.
  intros E T HT. assert (K := kB_pos). unfold detailed_balance_factor.
  replace (- - E / kB / T) with (E / (kB * T)) by (field; lra).
  replace (- E / kB / T) with (- (E / (kB * T))) by (field; lra).
  rewrite exp_Ropp. assert (P := exp_pos (E / (kB * T))). field. lra.
Qed.
Print Assumptions C15_factor_reflection.

(** C15.  Hence a scattering function in detailed balance has an odd susceptibility. *)
Theorem C15_susceptibility_odd : forall sigma ki kf ki' kf' det det' E T, 0 < T ->
  scattering_function sigma ki' kf' det' = exp (- (E / (kB * T))) * scattering_function sigma ki kf det ->
  dynamic_susceptibility sigma ki' kf' det' (- E) T = - dynamic_susceptibility sigma ki kf det E T.
Proof.
  intros sigma ki kf ki' kf' det det' E T HT H. unfold dynamic_susceptibility. rewrite H, C15_factor_reflection by auto.
  rewrite exp_Ropp. assert (P := exp_pos (E / (kB * T))). field. lra.
Qed.
Print Assumptions C15_susceptibility_odd.
Example C15_ex : exists det', scattering_function 1 1 1 det' = exp (- (10 / (kB * 300))) * scattering_function 1 1 1 50.
Proof. exists (exp (- (10 / (kB * 300))) * 50). unfold scattering_function. field. Qed.

(** C15.  The scattering function inverts the double differential cross section
    (sigma / 4 pi) (kf / ki) S. *)
Theorem C15_cross_section : forall sigma ki kf det, sigma <> 0 -> ki <> 0 -> kf <> 0 ->
  sigma / (4 * PI) * (kf / ki) * scattering_function sigma ki kf det = det.
Proof. intros. assert (P := PI_neq0). unfold scattering_function. field. auto. Qed.
Print Assumptions C15_cross_section.

(** C15.  The factor vanishes at E = 0, has the sign of E and is below 1. *)
Theorem C15_factor_sign : forall E T, 0 < T ->
  (E = 0 -> detailed_balance_factor E T = 0) /\
  (0 < E -> 0 < detailed_balance_factor E T) /\ (E < 0 -> detailed_balance_factor E T < 0) /\
  detailed_balance_factor E T < 1.
Proof.
  intros E T HT. assert (K := kB_pos). unfold detailed_balance_factor.
  assert (KT : 0 < kB * T) by (apply Rmult_lt_0_compat; auto).
  replace (- E / kB / T) with (- E * / (kB * T)) by (field; lra).
  assert (I : 0 < / (kB * T)) by (now apply Rinv_0_lt_compat).
  assert (X := exp_pos (- E * / (kB * T))).
  split; [|split; [|split]]; [intros -> |intros H|intros H|lra].
  - rewrite Ropp_0, Rmult_0_l, exp_0. lra.
  - assert (- E * / (kB * T) < 0) by (assert (0 < E * / (kB * T)) by (now apply Rmult_lt_0_compat); lra).
    assert (Y := exp_increasing _ _ H0). rewrite exp_0 in Y. lra.
  - assert (0 < - E * / (kB * T)) by (apply Rmult_lt_0_compat; lra).
    assert (Y := exp_increasing _ _ H0). rewrite exp_0 in Y. lra.
Qed.
Print Assumptions C15_factor_sign.
End Balance.

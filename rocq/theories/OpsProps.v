(** Properties of dataset operators (C05), normalisation (C06), background subtraction (C07),
    construction (C10) and assignment (C11). *)
From Coq Require Import String List QArith Qpower Qabs Qround Bool Arith Lia Lqa ZArith.
From Verif Require Import Base DataModel DataSpec DataProof CombineProof OpsModel OpsSpec OpsProof.
Import ListNotations.
Local Open Scope string_scope.

Definition ok1 : list key := ["h"; "e"; "detector"; "monitor"; "time"].
Definition ot (rs : list (list Q)) : table := mkTable ok1 rs.
Definition od (rs : list (list Q)) (m t : Q) : data := mkData (ot rs) default_dkeys m t None false.
Definition ot1 := ot [[1; 4; 10; 100; 5]; [0; 4; 7; 50; 10]].
Lemma ok1_nodup : NoDup ok1. Proof. repeat constructor; simpl; intuition discriminate. Qed.
Lemma ot1_wf : wf_table ot1. Proof. split; [exact ok1_nodup|]. repeat constructor. Qed.

(** C05.  One operator application changes the detector column elementwise and nothing else. *)
Theorem C05_operator_frame : forall o d x d',
  wf_table (tab d) -> binop_data o d x = Some d' ->
  keys (tab d') = keys (tab d) /\ dk d' = dk d /\ m0 d' = m0 d /\ t0 d' = t0 d /\
  err d' = err d /\ time_norm d' = time_norm d /\ wf_table (tab d') /\
  (forall k, k <> kdet (dk d) -> col (tab d') k = col (tab d) k) /\
  (forall c, col (tab d) (kdet (dk d)) = Some c ->
     exists c', col (tab d') (kdet (dk d)) = Some c' /\ Forall2 (fun v v' => op_value o v x = Some v') c c').
Proof. exact binop_frame. Qed.
Print Assumptions C05_operator_frame.

(** Histories of operator applications. *)
Fixpoint apply_ops (d : data) (l : list (binop * Q)) : option data :=
  match l with [] => Some d | (o, x) :: l' => match binop_data o d x with Some d' => apply_ops d' l' | None => None end end.

(** C05.  However many operators are applied, every column but the detector is what it was. *)
Theorem C05_operator_history : forall l d d',
  wf_table (tab d) -> apply_ops d l = Some d' ->
  keys (tab d') = keys (tab d) /\ forall k, k <> kdet (dk d) -> col (tab d') k = col (tab d) k.
Proof.
  induction l as [|[o x] l IH]; simpl; intros d d' W E; [inversion E; auto|].
  destruct (binop_data o d x) as [d1|] eqn:E1; [|discriminate].
  destruct (binop_frame _ _ _ _ W E1) as (K & D & _ & _ & _ & _ & W1 & C & _).
  destruct (IH _ _ W1 E) as [K' C']. split; [congruence|]. intros k Hk. rewrite C' by congruence. auto.
Qed.
Print Assumptions C05_operator_history.
Example C05_ex : wf_table (tab (od [[1; 4; 10; 100; 5]; [0; 4; 7; 50; 10]] 100 10)) /\
  exists d', apply_ops (od [[1; 4; 10; 100; 5]; [0; 4; 7; 50; 10]] 100 10) [(OMul, 3); (OFloorDiv, 4)] = Some d' /\
    col (tab d') "detector" = Some [7; 5] /\ col (tab d') "monitor" = Some [100; 50].
Proof. split; [exact ot1_wf|]. eexists; split; [vm_compute; reflexivity|]. split; reflexivity. Qed.

(** C05.  Multiplying and dividing by the same non-zero number restores every detector value. *)
Theorem C05_mul_div : forall d x d1 d2 c c2,
  wf_table (tab d) -> binop_data OMul d x = Some d1 -> binop_data ODiv d1 x = Some d2 ->
  col (tab d) (kdet (dk d)) = Some c -> col (tab d2) (kdet (dk d)) = Some c2 -> Forall2 Qeq c2 c.
Proof.
  intros d x d1 d2 c c2 W E1 E2 H1 H2.
  destruct (binop_frame _ _ _ _ W E1) as (K & D & _ & _ & _ & _ & W1 & _ & C1).
  destruct (C1 _ H1) as (c1 & Hc1 & F1).
  destruct (binop_frame _ _ _ _ W1 E2) as (_ & _ & _ & _ & _ & _ & _ & _ & C2).
  rewrite D in C2. destruct (C2 _ Hc1) as (c2' & Hc2 & F2). rewrite H2 in Hc2. inversion Hc2; subst c2'.
  clear - F1 F2. revert c2 F2. induction F1; intros c2 F2; inversion F2; subst; constructor; auto.
  simpl in *. inversion H; subst. destruct (Qeq_bool x 0) eqn:E; [discriminate|]. inversion H2; subst.
  apply Qeq_bool_neq in E. field. auto.
Qed.
Print Assumptions C05_mul_div.
Example C05_mul_div_ex : exists d1 d2, binop_data OMul (od [[1; 4; 10; 100; 5]] 100 5) 3 = Some d1 /\
  binop_data ODiv d1 3 = Some d2 /\ col (tab d2) "detector" = Some [30 # 3].
Proof. do 2 eexists. split; [reflexivity|]. split; reflexivity. Qed.

(** C05.  What the operators compute: products, quotients, the integer just below the quotient, and
    integer powers. *)
Theorem C05_operator_values : forall o v x v', op_value o v x = Some v' ->
  match o with
  | OMul => v' == v * x
  | ODiv => ~ x == 0 /\ v' * x == v
  | OFloorDiv => ~ x == 0 /\ exists n r, v' == inject_Z n /\ v / x == inject_Z n + r /\ 0 <= r < 1
  | OPow => exists n, x == inject_Z n /\
              match n with
              | Z0 => v' == 1
              | Zpos p => v' == Pos.iter (fun a => v * a) 1 p
              | Zneg p => ~ v == 0 /\ v' * Pos.iter (fun a => v * a) 1 p == 1
              end
  end.
Proof.
  assert (Pw : forall v p, Qpower_positive v p == Pos.iter (fun a => v * a) 1 p).
  { intros v p. induction p using Pos.peano_ind.
    - simpl. ring.
    - rewrite Pos.iter_succ. rewrite <- IHp. rewrite <- Pos.add_1_l. rewrite Qpower_plus_positive. simpl. reflexivity. }
  intros [] v x v' H; simpl in H.
  - inversion H. reflexivity.
  - destruct (Qeq_bool x 0) eqn:E; [discriminate|]. apply Qeq_bool_neq in E. inversion H. split; auto. field. auto.
  - destruct (Qeq_bool x 0) eqn:E; [discriminate|]. apply Qeq_bool_neq in E. inversion H. split; auto.
    exists (Qfloor (v / x)), (v / x - inject_Z (Qfloor (v / x))). split; [reflexivity|]. split; [ring|].
    assert (A := Qfloor_le (v / x)). assert (B := Qlt_floor (v / x)). rewrite inject_Z_plus in B.
    change (inject_Z 1) with 1 in B. lra.
  - destruct (Qeq_bool (inject_Z (Qnum x)) x) eqn:E; [|discriminate]. apply Qeq_bool_iff in E.
    exists (Qnum x). split; [now rewrite E|].
    destruct (Qeq_bool v 0 && (Qnum x <? 0)%Z) eqn:Z; [discriminate|]. inversion H; subst v'.
    destruct (Qnum x) as [|p|p] eqn:N; simpl Qpower; [reflexivity|apply Pw|].
    rewrite <- Pw. assert (V : ~ v == 0).
    { intros V. apply Qeq_bool_iff in V. rewrite V in Z. simpl in Z. discriminate. }
    split; auto. rewrite Qmult_comm. apply Qmult_inv_r. intros W. apply V. clear - W.
    induction p using Pos.peano_ind; [simpl in W; auto|].
    rewrite <- Pos.add_1_l in W. rewrite Qpower_plus_positive in W. apply Qmult_integral in W. destruct W; auto.
Qed.
Print Assumptions C05_operator_values.
Example C05_values_ex : op_value OFloorDiv (- 7) 2 = Some (- 4) /\ exists q, op_value OPow 2 (- 3) = Some q /\ q == 1 # 8.
Proof. split; [reflexivity|]. eexists; split; reflexivity. Qed.

(** C05.  The augmented forms never leave the name bound to a dataset; floor division raises. *)
Theorem C05_augmented_loses_dataset : forall d a,
  match aug_exec d a with
  | Ok (_, v) => v = VNone
  | Err e => (exists x, a = AFloorDiv x /\ e = NameError) \/ (exists o, a = AAdd o \/ a = ASub o)
  end.
Proof.
  intros d [o|o|x|x|x]; simpl; auto.
  - destruct (combine_inplace d o TolDefault); eauto.
  - destruct (subtract d o); eauto.
  - left; eauto.
Qed.
Print Assumptions C05_augmented_loses_dataset.
(** C05.  ... although the object itself has been updated exactly as by the plain operator. *)
Theorem C05_augmented_keeps_dataset_refuted : exists d x d',
  binop_data OMul d x = Some d' /\ aug_exec d (AMul x) = Ok (MData (Some d'), VNone) /\
  ~ exists m v, aug_exec d (AMul x) = Ok (m, VData v).
Proof.
  exists (od [[1; 4; 10; 100; 5]] 100 5), 3. eexists. split; [reflexivity|]. split; [reflexivity|].
  intros (m & v & H). discriminate H.
Qed.
Print Assumptions C05_augmented_keeps_dataset_refuted.

(** C06.  A fresh dataset reports detector / norm * largest norm reading, point by point. *)
Theorem C06_fresh_intensity : forall tb k tn d vals d',
  fresh tb k tn = Ok d -> intensity d = Ok (vals, d') ->
  exists det nrm m, col tb (kdet k) = Some det /\ col tb (norm_column d) = Some nrm /\
    is_largest m nrm /\
    Forall2 (fun ab v => normalised m (fst ab) (snd ab) v) (List.combine det nrm) vals.
Proof. exact fresh_intensity. Qed.
Print Assumptions C06_fresh_intensity.

(** C06.  It exists for every non-empty table with the three columns. *)
Theorem C06_intensity_total : forall tb k tn,
  rows tb <> [] -> In (kdet k) (keys tb) -> In (kmon k) (keys tb) -> In (ktime k) (keys tb) ->
  exists d vals d', fresh tb k tn = Ok d /\ intensity d = Ok (vals, d').
Proof. exact fresh_intensity_total. Qed.
Print Assumptions C06_intensity_total.
Example C06_ex : exists d s, fresh ot1 default_dkeys false = Ok d /\
  match intensity d with Ok (vals, s') => s' = s /\ Forall2 oeq vals [Some 10; Some 14] | Err _ => False end.
Proof. do 2 eexists. split; [vm_compute; reflexivity|]. cbn. split; [reflexivity|]. repeat constructor. Qed.

(** C06.  Scaling every norm reading by the same positive factor does not change the intensity. *)
Theorem C06_norm_scale_invariant : forall tb k tn c d1 d2 v1 v2 s1 s2,
  wf_table tb -> 0 < c -> kdet k <> kmon k -> kdet k <> ktime k -> kmon k <> ktime k ->
  fresh tb k tn = Ok d1 -> fresh (map_col (norm_column d1) (fun x => x * c) tb) k tn = Ok d2 ->
  intensity d1 = Ok (v1, s1) -> intensity d2 = Ok (v2, s2) -> Forall2 oeq v2 v1.
Proof. exact intensity_monitor_scale. Qed.
Print Assumptions C06_norm_scale_invariant.
Example C06_scale_ex : exists d1 d2, fresh ot1 default_dkeys false = Ok d1 /\
  fresh (map_col (norm_column d1) (fun x => x * 3) ot1) default_dkeys false = Ok d2 /\
  m0 d2 == 300 /\ (exists v1 s1 v2 s2, intensity d1 = Ok (v1, s1) /\ intensity d2 = Ok (v2, s2)).
Proof. do 2 eexists. split; [vm_compute; reflexivity|]. split; [vm_compute; reflexivity|]. split; [reflexivity|].
  do 4 eexists. split; vm_compute; reflexivity. Qed.

(** C06.  Intensity is linear in the detector column. *)
Theorem C06_detector_linear : forall tb k tn c d1 d2 v1 v2 s1 s2,
  wf_table tb -> kdet k <> kmon k -> kdet k <> ktime k ->
  fresh tb k tn = Ok d1 -> fresh (map_col (kdet k) (fun x => x * c) tb) k tn = Ok d2 ->
  intensity d1 = Ok (v1, s1) -> intensity d2 = Ok (v2, s2) ->
  Forall2 oeq v2 (map (option_map (fun q => q * c)) v1).
Proof. exact intensity_detector_scale. Qed.
Print Assumptions C06_detector_linear.

(** C06.  The squared error of a fresh dataset is detector * (largest norm / norm)^2. *)
Theorem C06_fresh_error : forall tb k tn d vals d',
  fresh tb k tn = Ok d -> error_sq d = Ok (vals, d') ->
  exists det nrm m, col tb (kdet k) = Some det /\ col tb (norm_column d) = Some nrm /\
    is_largest m nrm /\
    Forall2 (fun ab v => (snd ab == 0 /\ v = None) \/
                         (~ snd ab == 0 /\ exists q, v = Some q /\ q == fst ab * ((m / snd ab) * (m / snd ab))))
            (List.combine det nrm) vals.
Proof. exact fresh_error. Qed.
Print Assumptions C06_fresh_error.

(** C06.  A dataset with explicit errors reports those, normalised in the same way. *)
Theorem C06_explicit_error : forall d es vals d', err d = Some es -> length es = length (rows (tab d)) ->
  error_sq d = Ok (vals, d') ->
  exists nrm m, col (tab d) (norm_column d) = Some nrm /\ reference d = Ok (m, d') /\
    Forall2 (fun ab v => (snd ab == 0 /\ v = None) \/
                         (~ snd ab == 0 /\ exists q, v = Some q /\ q == (fst ab / snd ab * m) * (fst ab / snd ab * m)))
            (List.combine es nrm) vals.
Proof.
  intros d es vals d' He L H. unfold error_sq, getcol in H.
  destruct (col (tab d) (kdet (dk d))) as [det|] eqn:E1; [|discriminate].
  change (norm_key d) with (norm_column d) in H.
  destruct (col (tab d) (norm_column d)) as [nrm|] eqn:E2; [|discriminate].
  destruct (reference d) as [[m d2]|] eqn:Er; [|discriminate]. rewrite He in H. inversion H; subst; clear H.
  exists nrm, m. split; auto. split; auto. rewrite <- (col_length _ _ _ E2) in L. clear - L.
  revert nrm L. induction es as [|e es IH]; intros [|n nrm] L; simpl in *; try lia; constructor; auto.
  cbn [fst snd]. unfold fdiv. destruct (Qeq_bool (n * n) 0) eqn:Z.
  - left. split; auto. apply Qeq_bool_iff in Z. apply Qmult_integral in Z. tauto.
  - right. apply Qeq_bool_neq in Z. assert (N : ~ n == 0) by (intros N; apply Z; rewrite N; reflexivity).
    split; auto. eexists; split; [reflexivity|]. field. auto.
Qed.
Print Assumptions C06_explicit_error.
Example C06_explicit_ex : exists v s, error_sq (mkData ot1 default_dkeys 100 10 (Some [3; 4]) false) = Ok (v, s) /\
  Forall2 oeq v [Some 9; Some 64].
Proof. do 2 eexists. split; [vm_compute; reflexivity|]. repeat constructor. Qed.

(** C06.  The reference is frozen: whatever table the object later holds, a non-zero reference is
    the one used. *)
Theorem C06_reference_frozen : forall d tb vals d' det nrm,
  ~ (if time_norm d then t0 d else m0 d) == 0 ->
  col tb (kdet (dk d)) = Some det -> col tb (norm_column d) = Some nrm ->
  intensity (mkData tb (dk d) (m0 d) (t0 d) (err d) (time_norm d)) = Ok (vals, d') ->
  Forall2 (fun ab v => normalised (if time_norm d then t0 d else m0 d) (fst ab) (snd ab) v)
          (List.combine det nrm) vals.
Proof.
  intros d tb vals d' det nrm Hr Hd Hn Hi. apply intensity_eq in Hi.
  destruct Hi as (det' & nrm' & m & E1 & E2 & E3 & -> & L). cbn [tab dk] in *.
  rewrite Hd in E1. inversion E1; subst det'.
  unfold norm_key in E2; cbn [time_norm dk] in E2. unfold norm_column in Hn. rewrite Hn in E2. inversion E2; subst nrm'.
  destruct (reference_frozen d tb Hr) as [d2 H2]. rewrite H2 in E3. inversion E3; subst.
  now apply fvals_normalised.
Qed.
Print Assumptions C06_reference_frozen.

(** C06.  A combination returned as a new object has reference 0, so the next reading of its
    intensity uses the largest monitor reading of the combined data. *)
Theorem C06_combined_renormalises : forall a b t d vals d',
  combine_ret a b t = Ok d -> intensity d = Ok (vals, d') ->
  exists det nrm m, col (tab d) "detector" = Some det /\ col (tab d) "monitor" = Some nrm /\
    is_largest m nrm /\ Forall2 (fun ab v => normalised m (fst ab) (snd ab) v) (List.combine det nrm) vals.
Proof.
  intros a b t d vals d' Hc Hi. unfold combine_ret in Hc. destruct (combine_table a b t) as [tb|]; [|discriminate].
  inversion Hc; subst d. apply intensity_eq in Hi. destruct Hi as (det & nrm & m & E1 & E2 & E3 & -> & L).
  cbn [tab dk default_dkeys kdet] in *. change (norm_key _) with "monitor" in E2.
  exists det, nrm, m. split; auto. split; auto. split; [|now apply fvals_normalised].
  unfold reference in E3. cbn [time_norm m0 t0 tab] in E3. change (Qeq_bool 0 0) with true in E3. cbv iota in E3.
  change (norm_key _) with "monitor" in E3. unfold getcol in E3. rewrite E2 in E3.
  destruct (nanmax nrm) as [m'|] eqn:En; [|discriminate]. inversion E3; subst. now apply nanmax_largest.
Qed.
Print Assumptions C06_combined_renormalises.

(** C06.  Combining in place is different: the intensity of the updated object is not the one a
    fresh dataset with the same columns has. *)
Theorem C06_inplace_combination_normalised_refuted : exists tb1 tb2 d1 d2 d3 f v s v' s',
  fresh tb1 default_dkeys false = Ok d1 /\ fresh tb2 default_dkeys false = Ok d2 /\
  combine_inplace d1 d2 TolDefault = Ok d3 /\ fresh (tab d3) default_dkeys false = Ok f /\
  intensity d3 = Ok (v, s) /\ intensity f = Ok (v', s') /\ ~ Forall2 oeq v v'.
Proof.
  exists (ot [[0; 4; 10; 100; 5]]), (ot [[0; 4; 20; 100; 5]]). do 8 eexists.
  do 6 (split; [vm_compute; reflexivity|]). intros H. inversion H; subst. discriminate H3.
Qed.
Print Assumptions C06_inplace_combination_normalised_refuted.

(** C07.  Background subtraction of datasets of equal length. *)
Theorem C07_subtraction_law : forall self bg i1 i2 e1 e2 s1 s2 s3 s4,
  intensity self = Ok (i1, s1) -> intensity bg = Ok (i2, s2) ->
  error_sq self = Ok (e1, s3) -> error_sq bg = Ok (e2, s4) ->
  length i1 = length i2 -> length e1 = length i1 -> length e2 = length i2 ->
  exists s, subtract self bg = Ok s /\
    s_coords s = map (pos self) (rows (tab self)) /\ s_time_norm s = time_norm self /\
    Forall2 oeq (s_intensity s) (zip_with (opt2 Qminus) i1 i2) /\
    Forall2 oeq (s_error_sq s) (zip_with (opt2 qmax) e1 e2).
Proof. exact subtract_law. Qed.
Print Assumptions C07_subtraction_law.

(** C07.  Subtracting a dataset from itself gives zero wherever the intensity is finite. *)
Theorem C07_self_subtraction : forall d i e s1 s2,
  intensity d = Ok (i, s1) -> error_sq d = Ok (e, s2) -> err d = None ->
  Forall (fun v => v <> None) i ->
  exists s, subtract d d = Ok s /\ Forall2 oeq (s_intensity s) (map (fun _ => Some 0) i).
Proof.
  intros d i e s1 s2 Hi He Hn F.
  assert (L1 := intensity_length _ _ _ Hi). assert (L2 := fun P => error_length d _ _ P He). rewrite Hn in L2.
  destruct (subtract_law d d i i e e s1 s1 s2 s2) as (s & E & _ & _ & A & _); auto; try (rewrite L1; auto).
  exists s. split; auto. clear - A F. assert (Z := self_subtract_zero i F).
  revert A Z. generalize (s_intensity s), (zip_with (opt2 Qminus) i i), (map (fun _ : option Q => Some 0) i).
  induction l; intros l1 l2 A Z; inversion A; subst; inversion Z; subst; constructor; eauto.
  destruct a, y, y0; simpl in *; try tauto. lra.
Qed.
Print Assumptions C07_self_subtraction.
Example C07_ex : exists s, subtract (od [[1; 4; 10; 100; 5]; [0; 4; 7; 50; 10]] 100 10)
                                    (od [[1; 4; 1; 100; 5]; [0; 4; 8; 100; 10]] 100 10) = Ok s /\
  Forall2 oeq (s_intensity s) [Some 9; Some 6] /\ Forall2 oeq (s_error_sq s) [Some 10; Some 28].
Proof. eexists; split; [vm_compute; reflexivity|]. split; cbn; repeat constructor. Qed.

(** C07.  The result has unit monitor and time at every point, and unit references. *)
Theorem C07_unit_norm : forall self bg s, subtract self bg = Ok s \/ (exists near qk x, subtract_x near qk self bg x = Ok s) ->
  s_monitor s = repeat 1 (length (s_detector s)) /\ s_time s = repeat 1 (length (s_detector s)) /\ s_m0 s = 1 /\ s_t0 s = 1.
Proof.
  assert (C : forall A (l : list A), map (fun _ => 1) l = repeat 1 (length l)) by (induction l; simpl; congruence).
  intros self bg s [H|(near & qk & x & H)].
  - unfold subtract in H. destruct (intensity self) as [[i1 ?]|]; [|discriminate]. destruct (intensity bg) as [[i2 ?]|]; [|discriminate].
    destruct (error_sq self) as [[e1 ?]|]; [|discriminate]. destruct (error_sq bg) as [[e2 ?]|]; [|discriminate].
    destruct (broadcast _ i1 i2); [|discriminate]. inversion H; subst s; cbn. rewrite C. auto.
  - unfold subtract_x in H. destruct (column_pair self bg qk x) as [[bx sx]|]; [|discriminate]. destruct (intensity self) as [[i1 ?]|]; [|discriminate]. destruct (intensity bg) as [[i2 ?]|]; [|discriminate].
    destruct (error_sq self) as [[e1 ?]|]; [|discriminate]. destruct (error_sq bg) as [[e2 ?]|]; [|discriminate].
    inversion H; subst s; cbn. rewrite C. auto.
Qed.
Print Assumptions C07_unit_norm.
(** C07.  Different lengths are rejected unless one dataset has a single point. *)
Theorem C07_length_mismatch : forall self bg i1 i2 e1 e2 s1 s2 s3 s4,
  intensity self = Ok (i1, s1) -> intensity bg = Ok (i2, s2) ->
  error_sq self = Ok (e1, s3) -> error_sq bg = Ok (e2, s4) ->
  length i1 <> length i2 -> length i1 <> 1%nat -> length i2 <> 1%nat ->
  subtract self bg = Err ValueError.
Proof. exact subtract_length_mismatch. Qed.
Print Assumptions C07_length_mismatch.
Example C07_mismatch_ex : subtract (od [[1; 4; 10; 100; 5]; [0; 4; 7; 50; 10]] 100 10)
   (od [[1; 4; 1; 100; 5]; [0; 4; 8; 100; 10]; [3; 4; 8; 100; 10]] 100 10) = Err ValueError.
Proof. reflexivity. Qed.

(** C07.  A one-point background is broadcast, and the result has fewer errors than intensities. *)
Theorem C07_one_point_background_refuted : exists self bg s,
  subtract self bg = Ok s /\ length (rows (tab self)) = 3%nat /\
  length (s_intensity s) = 3%nat /\ length (s_error_sq s) = 1%nat.
Proof.
  exists (od [[1; 4; 10; 100; 5]; [0; 4; 7; 50; 10]; [2; 4; 7; 50; 10]] 100 10), (od [[1; 4; 1; 100; 5]] 100 5).
  eexists. split; [vm_compute; reflexivity|]. repeat split.
Qed.
Print Assumptions C07_one_point_background_refuted.

(** C07.  Subtraction over a column: each point gets the background intensity at a nearest background
    point, and the larger of the two errors there. *)
Definition nearest (near : list Q -> Q -> nat) : Prop := forall pts q, pts <> [] ->
  exists p, nth_error pts (near pts q) = Some p /\ Forall (fun p' => Qabs (q - p) <= Qabs (q - p')) pts.
Theorem C07_subtraction_over_column : forall near qk self bg x s i1 i2 e1 e2 s1 s2 s3 s4,
  nearest near -> rows (tab bg) <> [] -> err self = None -> err bg = None ->
  intensity self = Ok (i1, s1) -> intensity bg = Ok (i2, s2) ->
  error_sq self = Ok (e1, s3) -> error_sq bg = Ok (e2, s4) ->
  subtract_x near qk self bg x = Ok s ->
  s_coords s = map (pos self) (rows (tab self)) /\
  exists name bx sx, (name = x \/ In (x, name) qk) /\
    col (tab bg) name = Some bx /\ col (tab self) name = Some sx /\
    forall n, (n < length (rows (tab self)))%nat ->
    exists q j p v1 v2 f1 f2 w z, nth_error sx n = Some q /\ nth_error bx j = Some p /\
      Forall (fun p' => Qabs (q - p) <= Qabs (q - p')) bx /\
      nth_error i1 n = Some v1 /\ nth_error i2 j = Some v2 /\ nth_error e1 n = Some f1 /\ nth_error e2 j = Some f2 /\
      nth_error (s_intensity s) n = Some w /\ oeq w (opt2 Qminus v1 v2) /\
      nth_error (s_error_sq s) n = Some z /\ oeq z (opt2 qmax f1 f2).
Proof.
  intros near qk self bg x s i1 i2 e1 e2 s1 s2 s3 s4 Nr Nb En1 En2 H1 H2 H3 H4 H. unfold subtract_x in H.
  assert (L1 := intensity_length _ _ _ H1). assert (L2 := intensity_length _ _ _ H2).
  assert (L3 : length e1 = length (rows (tab self))) by (eapply error_length; eauto; now rewrite En1).
  assert (L4 : length e2 = length (rows (tab bg))) by (eapply error_length; eauto; now rewrite En2).
  destruct (column_pair self bg qk x) as [[bx sx]|] eqn:C; [|discriminate]. rewrite H1, H2, H3, H4 in H.
  inversion H; subst s; clear H. split; [reflexivity|].
  assert (N : exists name, (name = x \/ In (x, name) qk) /\ col (tab bg) name = Some bx /\ col (tab self) name = Some sx).
  { unfold column_pair in C.
    assert (Alt : match assoc qk x with
            | None => Err KeyError
            | Some x' => match col (tab bg) x', col (tab self) x' with Some b, Some s => Ok (b, s) | _, _ => Err KeyError end
            end = Ok (bx, sx) -> exists name, (name = x \/ In (x, name) qk) /\ col (tab bg) name = Some bx /\ col (tab self) name = Some sx).
    { clear. intros C. destruct (assoc qk x) as [x'|] eqn:A; [|discriminate].
      destruct (col (tab bg) x') eqn:X1; [|discriminate]. destruct (col (tab self) x') eqn:X2; [|discriminate].
      inversion C; subst. exists x'. split; auto. right. clear - A.
      induction qk as [|[a b] qk IH]; simpl in *; [discriminate|]. destruct (String.eqb_spec a x); [|auto].
      inversion A; subst. auto. }
    destruct (col (tab bg) x) eqn:X1; [|auto]. destruct (col (tab self) x) eqn:X2; [|auto]. inversion C; subst. exists x; auto. }
  destruct N as (name & Hn & Cb & Cs). exists name, bx, sx. split; auto. split; auto. split; auto.
  assert (Lb := col_length _ _ _ Cb). assert (Ls := col_length _ _ _ Cs).
  set (gi := map (fun q => nth (near bx q) i2 None) sx). set (ge := map (fun q => nth (near bx q) e2 None) sx).
  set (ni := zip_with (opt2 Qminus) i1 gi).
  assert (FI : Forall2 oeq (s_intensity (mkSub (map (coords (dk_list (dk self)) (keys (tab self))) (rows (tab self)))
                ni (map (fun _ => 1) ni) (map (fun _ => 1) ni) 1 1 (zip_with (opt2 qmax) e1 ge) (time_norm self))) ni).
  { unfold s_intensity, s_ref, s_norm; cbn [s_time_norm s_detector s_monitor s_time s_m0 s_t0].
    destruct (time_norm self); apply sub_intensity_list. }
  assert (FE : Forall2 oeq (s_error_sq (mkSub (map (coords (dk_list (dk self)) (keys (tab self))) (rows (tab self)))
                ni (map (fun _ => 1) ni) (map (fun _ => 1) ni) 1 1 (zip_with (opt2 qmax) e1 ge) (time_norm self))) (zip_with (opt2 qmax) e1 ge)).
  { unfold s_error_sq, s_ref, s_norm; cbn [s_time_norm s_errsq s_monitor s_time s_m0 s_t0].
    assert (length (zip_with (opt2 qmax) e1 ge) = length ni).
    { unfold ni. rewrite !zip_with_length. unfold gi, ge. rewrite !map_length. lia. }
    destruct (time_norm self); apply sub_error_list; auto. }
  intros n Hlt.
  assert (F2 : forall (A : Type) (R : A -> A -> Prop) l l' k b, Forall2 R l l' -> nth_error l' k = Some b -> exists a, nth_error l k = Some a /\ R a b).
  { clear. intros A R l l' k b F. revert k. induction F; intros [|k] Hk; simpl in *; try discriminate; [inversion Hk; subst; eauto|eauto]. }
  assert (ZW : forall (A B C : Type) (f : A -> B -> C) l l' k a b, nth_error l k = Some a -> nth_error l' k = Some b -> nth_error (zip_with f l l') k = Some (f a b)).
  { clear. intros A B C f l. induction l; intros [|y l'] [|k] u v Hu Hv; simpl in *; try discriminate; [congruence|eauto]. }
  assert (SM : forall (A : Type) (l : list A) k, (k < length l)%nat -> exists a, nth_error l k = Some a).
  { clear. intros A l k Hk. destruct (nth_error l k) eqn:X; eauto. apply nth_error_None in X. lia. }
  destruct (SM _ sx n ltac:(lia)) as [q Hq]. destruct (SM _ i1 n ltac:(lia)) as [v1 Hv1]. destruct (SM _ e1 n ltac:(lia)) as [f1 Hf1].
  assert (Bn : bx <> []) by (intros ->; simpl in Lb; destruct (rows (tab bg)); [auto|discriminate]).
  destruct (Nr bx q Bn) as (p & Hp & Fp).
  assert (J : (near bx q < length bx)%nat) by (apply nth_error_Some; congruence).
  destruct (SM _ i2 (near bx q) ltac:(lia)) as [v2 Hv2]. destruct (SM _ e2 (near bx q) ltac:(lia)) as [f2 Hf2].
  assert (G1 : nth_error gi n = Some v2) by (unfold gi; rewrite nth_error_map, Hq; simpl; f_equal; now apply nth_error_nth).
  assert (G2 : nth_error ge n = Some f2) by (unfold ge; rewrite nth_error_map, Hq; simpl; f_equal; now apply nth_error_nth).
  destruct (F2 _ _ _ _ n _ FI (ZW _ _ _ (opt2 Qminus) _ _ _ _ _ Hv1 G1)) as (w & Hw & Ow).
  destruct (F2 _ _ _ _ n _ FE (ZW _ _ _ (opt2 qmax) _ _ _ _ _ Hf1 G2)) as (z & Hz & Oz).
  exists q, (near bx q), p, v1, v2, f1, f2, w, z. repeat (split; [assumption|]). assumption.
Qed.
Print Assumptions C07_subtraction_over_column.
(** A nearest-point function exists, and the theorem applies to a concrete pair. *)
Fixpoint near_ex (pts : list Q) (q : Q) : nat :=
  match pts with
  | [] => 0
  | p :: pts' => match nth_error pts' (near_ex pts' q) with
                 | Some p' => if Qle_bool (Qabs (q - p)) (Qabs (q - p')) then 0 else S (near_ex pts' q)
                 | None => 0
                 end
  end%nat.
Lemma near_ex_nearest : nearest near_ex.
Proof.
  intros pts q. induction pts as [|p pts IH]; [congruence|]. intros _. destruct pts as [|p1 pts].
  - exists p. split; auto. repeat constructor. lra.
  - destruct IH as (p' & Hp & F); [discriminate|].
    change (near_ex (p :: p1 :: pts) q) with
      (match nth_error (p1 :: pts) (near_ex (p1 :: pts) q) with
       | Some p' => if Qle_bool (Qabs (q - p)) (Qabs (q - p')) then 0%nat else S (near_ex (p1 :: pts) q)
       | None => 0%nat end).
    rewrite Hp.
    destruct (Qle_bool (Qabs (q - p)) (Qabs (q - p'))) eqn:B.
    + apply Qle_bool_iff in B. exists p. split; auto. constructor; [lra|]. eapply Forall_impl; [|exact F]. intros a Ha. eapply Qle_trans; eauto.
    + exists p'. split; [exact Hp|]. constructor; auto.
      destruct (Qlt_le_dec (Qabs (q - p')) (Qabs (q - p))); [lra|]. apply Qle_bool_iff in q0. congruence.
Qed.
Example C07_column_ex : exists s, subtract_x near_ex [("H", "h")] (od [[1; 4; 10; 100; 5]; [0; 4; 7; 50; 10]; [3; 4; 7; 50; 10]] 100 10)
    (od [[0; 4; 1; 100; 5]; [2; 4; 8; 100; 10]] 100 10) "H" = Ok s /\
  Forall2 oeq (s_intensity s) [Some 9; Some 13; Some 6].
Proof. eexists; split; [vm_compute; reflexivity|]. cbn; repeat constructor. Qed.

(** C10.  Numbers and arrays of one length n give columns of length n. *)
Theorem C10_columns_rectangular : forall n h k l e temp det mon tim,
  Forall (fits n) [h; k; l; e; temp; det; mon; tim] ->
  Exists is_array [h; k; l; e; temp; det; mon; tim] ->
  rectangular n (build h k l e temp det mon tim) /\ standard (build h k l e temp det mon tim).
Proof. exact build_rect. Qed.
Print Assumptions C10_columns_rectangular.
Example C10_ex : Forall (fits 3) [AArr [1; 2; 3]; ANum 0; ANum 0; AArr [4; 5; 6]; ANum 1; AArr [7; 8; 9]; ANum 1; ANum 1] /\
  Exists is_array [AArr [1; 2; 3]; ANum 0; ANum 0; AArr [4; 5; 6]; ANum 1; AArr [7; 8; 9]; ANum 1; ANum 1].
Proof. split; [repeat constructor|]. apply Exists_cons_hd. exact I. Qed.

(** C10.  Given values are stored: arrays as they are, numbers repeated. *)
Theorem C10_columns_hold_arguments : forall n h k l e temp det mon tim,
  Forall (fits n) [h; k; l; e; temp; det; mon; tim] ->
  Exists is_array [h; k; l; e; temp; det; mon; tim] ->
  forall name a, In (name, a) [("h", h); ("k", k); ("l", l); ("e", e); ("temp", temp);
                               ("detector", det); ("monitor", mon); ("time", tim)] ->
  exists c, cget (build h k l e temp det mon tim) name = Some c /\
    match a with ANum q => c = repeat q n | AArr v => c = v end.
Proof.
  intros n h k l e temp det mon tim F X name a H. unfold build. rewrite (n_dim_spec n) by auto.
  simpl in H. repeat (destruct H as [H|H]; [inversion H; subst; eexists; split; [reflexivity|]; destruct a; reflexivity|]).
  destruct H.
Qed.
Print Assumptions C10_columns_hold_arguments.

(** C10.  All numbers: one point. *)
Theorem C10_scalars_one_point : forall h k l e temp det mon tim,
  Forall (fun a => ~ is_array a) [h; k; l; e; temp; det; mon; tim] ->
  rectangular 1 (build h k l e temp det mon tim).
Proof. exact build_scalars_rect. Qed.
Print Assumptions C10_scalars_one_point.
Example C10_scalars_ex : Forall (fun a => ~ is_array a) (repeat (ANum 2) 8).
Proof. repeat constructor; intros []. Qed.

(** C10.  With Q= given the columns agree exactly when every count given as a number meets
    five points. *)
Theorem C10_Q_argument : forall Q det mon tim,
  rectangular (length Q) (build_Q Q det mon tim) <->
  Forall (fun a => match a with ANum _ => length Q = 5%nat | AArr l => length l = length Q end) [det; mon; tim].
Proof. exact build_Q_rect. Qed.
Print Assumptions C10_Q_argument.
Theorem C10_Q_argument_rectangular_refuted : exists Q det mon tim,
  length Q = 2%nat /\ length det = 2%nat /\ ~ exists n, rectangular n (build_Q Q (AArr det) (ANum mon) (ANum tim)).
Proof.
  exists [(0, 0, 0, 0, 0); (1, 0, 0, 0, 0)], [3; 4], 1, 1. split; auto. split; auto. intros [n R].
  unfold rectangular in R. inversion R; subst. simpl in *.
  repeat match goal with H : Forall _ (_ :: _) |- _ => inversion H; subst; clear H end. discriminate.
Qed.
Print Assumptions C10_Q_argument_rectangular_refuted.

(** C11.  One coordinate assignment: it stores the value in that column only or raises and changes
    nothing (a raising call returns no columns). *)
Theorem C11_coordinate_assignment : forall n c k v,
  rectangular n c -> In "detector" (map fst c) -> k <> "detector" ->
  match set_coord c k v with
  | Ok c' => rectangular n c' /\ (forall k', k' <> k -> cget c' k' = cget c k') /\
             (match v with SNum q => cget c' k = Some (repeat q n)
                         | SArr l => length l = n /\ cget c' k = Some l | SList _ => False end)
  | Err e => match v with SNum _ => False | SArr l => e = ValueError /\ length l <> n
                        | SList _ => e = AttributeError end
  end.
Proof. exact set_coord_spec. Qed.
Print Assumptions C11_coordinate_assignment.

(** C11.  Any history of coordinate assignments keeps all columns at one length. *)
Theorem C11_assignment_history : forall n l c, rectangular n c -> In "detector" (map fst c) ->
  Forall only_coords l -> rectangular n (run_assigns c l).
Proof. exact assigns_rect. Qed.
Print Assumptions C11_assignment_history.
Example C11_ex : let c := build (AArr [1; 2]) (ANum 0) (ANum 0) (ANum 0) (ANum 1) (AArr [3; 4]) (ANum 1) (ANum 1) in
  rectangular 2 c /\ In "detector" (map fst c) /\
  Forall only_coords [SetCoord "h" (SArr [7; 8; 9]); SetCoord "e" (SNum 5); SetCoord "k" (SArr [7; 8])] /\
  cget (run_assigns c [SetCoord "h" (SArr [7; 8; 9]); SetCoord "e" (SNum 5)]) "h" = Some [1; 2].
Proof. cbv zeta. split; [repeat constructor|]. split; [simpl; tauto|]. split; [repeat constructor; discriminate|]. reflexivity. Qed.

(** C11.  The setters of detector, monitor and time store any value, and touch no other column. *)
Theorem C11_count_assignment : forall c k l, cget (set_counts c k l) k = Some l /\
  forall k', k' <> k -> cget (set_counts c k l) k' = cget c k'.
Proof.
  intros c k l. unfold set_counts. split.
  - induction c as [|[a b] c IH]; simpl; [now rewrite String.eqb_refl|].
    destruct (String.eqb_spec a k); simpl; [now rewrite String.eqb_refl|]. destruct (String.eqb_spec a k); [tauto|auto].
  - intros k' Hk. induction c as [|[a b] c IH]; simpl.
    + destruct (String.eqb_spec k k'); [congruence|auto].
    + destruct (String.eqb_spec a k); simpl.
      * destruct (String.eqb_spec k k'); [congruence|]. destruct (String.eqb_spec a k'); [congruence|auto].
      * destruct (String.eqb a k'); auto.
Qed.
Print Assumptions C11_count_assignment.
(** C11.  Hence the common length is not protected against them. *)
Theorem C11_count_assignment_refuted : exists n c l, rectangular n c /\ ~ exists m, rectangular m (run_assigns c l).
Proof.
  exists 2%nat, (build (AArr [1; 2]) (ANum 0) (ANum 0) (ANum 0) (ANum 1) (AArr [3; 4]) (ANum 1) (ANum 1)),
    [SetCounts "monitor" [1; 1; 1]].
  split; [repeat constructor|]. intros [m R]. cbv -[rectangular] in R. unfold rectangular in R.
  repeat match goal with H : Forall _ (_ :: _) |- _ => inversion H; subst; clear H end. simpl in *. discriminate.
Qed.
Print Assumptions C11_count_assignment_refuted.
(** C11.  Assigning to columns that are there, however often and whether or not it raises, adds none and leaves their order. *)
Theorem C11_columns_kept : forall l c, Forall (fun a => In (match a with SetCoord k _ => k | SetCounts k _ => k end) (map fst c)) l -> map fst (run_assigns c l) = map fst c.
Proof.
  induction l as [|a l IH]; intros c F; [reflexivity|]. inversion F as [|? ? A F']; subst. change (run_assigns c (a :: l)) with (run_assigns (run_assign c a) l).
  assert (E : map fst (run_assign c a) = map fst c).
  { destruct a as [k v|k v]; cbn [run_assign]; [|now apply cset_keys]. unfold set_coord. destruct (cget c "detector"); [|reflexivity]. destruct v; [now apply cset_keys| |reflexivity]. destruct (Nat.eqb _ _); [now apply cset_keys|reflexivity]. }
  rewrite IH; [exact E|]. rewrite E. exact F'.
Qed.
Print Assumptions C11_columns_kept.
Example C11_columns_kept_ex : Forall (fun a => In (match a with SetCoord k _ => k | SetCounts k _ => k end) (map fst [("h", [1]); ("detector", [2])])) [SetCoord "h" (SNum 3); SetCounts "detector" [5]].
Proof. repeat (constructor; [cbn; tauto|]); constructor. Qed.

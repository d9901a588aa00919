(** Properties C01-C04 of dataset combination (neutronpy/data/data.py, Data.combine_data). *)
From Coq Require Import String List QArith Qabs Bool Arith Lia Lqa Permutation Sorted.
From Verif Require Import Base DataModel DataSpec DataProof CombineProof.
Import ListNotations.
Local Open Scope string_scope.

(** Concrete datasets used in the examples: columns h, e and the three count columns. *)
Definition ex_keys : list key := ["h"; "e"; "detector"; "monitor"; "time"].
Definition ex_data (rs : list (list Q)) : data :=
  mkData (mkTable ex_keys rs) default_dkeys 0 0 None false.
Definition ex_a := ex_data [[1; 4; 10; 100; 5]; [0; 4; 7; 100; 5]].
Definition ex_b := ex_data [[0; 4; 3; 50; 2]; [2; 4; 1; 50; 2]; [0; 4; 2; 50; 2]].

(** C01.  The detector, monitor and time sums of a combination are the sums of both datasets. *)
Theorem C01_counts_conserved : forall self obj t tb k c1 c2,
  wf_table (tab self) -> combine_table self obj t = Ok tb ->
  In k (dk_list (dk self)) -> col (tab self) k = Some c1 -> col (tab obj) k = Some c2 ->
  exists c, col tb k = Some c /\ Qsum c == Qsum c1 + Qsum c2.
Proof. exact combine_sums. Qed.
Print Assumptions C01_counts_conserved.

(** C01.  Combination of datasets with the same columns always succeeds. *)
Theorem C01_combine_succeeds : forall self obj t ts,
  same_columns self obj -> effective_tols t (List.length (keys (tab obj))) (ncoords self) ts ->
  exists tb, combine_table self obj t = Ok tb.
Proof. exact combine_total. Qed.
Print Assumptions C01_combine_succeeds.

Lemma ex_layout rs1 rs2 :
  Forall (fun r => List.length r = 5%nat) rs1 -> Forall (fun r => List.length r = 5%nat) rs2 ->
  same_layout (ex_data rs1) (ex_data rs2).
Proof.
  intros F1 F2.
  assert (N : NoDup ex_keys) by (repeat constructor; simpl; intuition discriminate).
  split; [|reflexivity]. split; [split; assumption|]. split; [split; assumption|].
  split; [reflexivity|]. split; [reflexivity|]. split.
  { repeat constructor; simpl; intuition discriminate. }
  split; [simpl; intuition|]. unfold ncoords; simpl; lia.
Qed.
Example C01_ex_wf : wf_table (tab ex_a) /\ same_layout ex_a ex_b /\
  effective_tols TolDefault 5 (ncoords ex_a) [5 # 10000; 5 # 10000].
Proof.
  assert (L : same_layout ex_a ex_b) by (apply ex_layout; repeat constructor).
  split; [apply L|]. split; [exact L|]. split; reflexivity.
Qed.
Example C01_ex_run : exists tb, combine_table ex_a ex_b TolDefault = Ok tb /\
  col tb "detector" = Some [12; 10; 1] /\ col tb "h" = Some [0; 1; 2].
Proof. eexists; split; [vm_compute; reflexivity|]. split; reflexivity. Qed.

(** C02.  Row correspondence: every point of [self] survives with its own coordinates and gains
    exactly the counts of the points of [obj] whose first near point it is; the points of [obj]
    without a near point are present unchanged; nothing else is present. *)
Theorem C02_row_correspondence : forall self obj t ts tb,
  wf_table (tab self) -> wf_table (tab obj) ->
  effective_tols t (List.length (keys (tab obj))) (ncoords self) ts ->
  combine_table self obj t = Ok tb ->
  exists merged appended,
    keys tb = keys (tab self) /\
    Permutation (rows tb) (merged ++ appended) /\
    List.length merged = List.length (rows (tab self)) /\
    (forall j r, nth_error (rows (tab self)) j = Some r ->
       exists r', nth_error merged j = Some r' /\ List.length r' = List.length (keys (tab self)) /\
                  gains self obj (merged_into ts self obj j) r r') /\
    Forall2 (same_point self obj) (unmatched ts self obj) appended.
Proof. exact combine_rows. Qed.
Print Assumptions C02_row_correspondence.

Example C02_ex : merged_into [5#10000; 5#10000] ex_a ex_b 1 = [[0; 4; 3; 50; 2]; [0; 4; 2; 50; 2]]
  /\ merged_into [5#10000; 5#10000] ex_a ex_b 0 = []
  /\ unmatched [5#10000; 5#10000] ex_a ex_b = [[2; 4; 1; 50; 2]].
Proof. repeat split; reflexivity. Qed.

(** C03.  The result is ordered by its coordinates, the last coordinate column most significant
    (temp, e, l, k, h for the standard columns). *)
Theorem C03_sorted : forall self obj t tb,
  wf_table (tab self) -> combine_table self obj t = Ok tb ->
  StronglySorted (fun a b => lex_le (rev (pos self a)) (rev (pos self b))) (rows tb).
Proof. exact combine_sorted. Qed.
Print Assumptions C03_sorted.

Example C03_ex : exists tb, combine_table ex_a ex_b TolDefault = Ok tb /\
  map (pos ex_a) (rows tb) = [[0; 4]; [1; 4]; [2; 4]].
Proof. eexists; split; vm_compute; reflexivity. Qed.

(** C04.  With exact matching, combination adds the counts recorded at every position. *)
Theorem C04_counts_add_pointwise : forall self obj t d' c k,
  same_layout self obj -> exact_matching t self obj -> combine_inplace self obj t = Ok d' ->
  In k (dk_list (dk self)) ->
  counts_at d' c k == counts_at self c k + counts_at obj c k.
Proof. exact combine_counts. Qed.
Print Assumptions C04_counts_add_pointwise.

Lemma same_layout_sym a b : same_layout a b -> same_layout b a.
Proof.
  intros [(Wa & Wb & Ed & Hk & Nd & Hd & Hc) Ek]. unfold same_layout, same_columns.
  unfold ncoords in *. rewrite <- Ed, <- Ek.
  split; [|reflexivity]. split; [exact Wb|]. split; [exact Wa|]. split; [reflexivity|].
  split; [tauto|]. auto.
Qed.

(** C04.  Hence, with exact matching, the order of the operands does not matter: at every position
    both sums hold the same counts, and there is a point there in one iff there is in the other;
    if neither operand repeats a position, neither does the result. *)
Theorem C04_exact_commutes : forall a b t d1 d2,
  same_layout a b -> exact_matching t a b -> exact_matching t b a ->
  combine_inplace a b t = Ok d1 -> combine_inplace b a t = Ok d2 ->
  (forall c k, In k (dk_list (dk a)) -> counts_at d1 c k == counts_at d2 c k) /\
  (forall c, points_at d1 c = [] <-> points_at d2 c = []) /\
  (distinct_points a -> distinct_points b -> distinct_points d1 /\ distinct_points d2).
Proof.
  intros a b t d1 d2 L E1 E2 H1 H2. assert (L' := same_layout_sym _ _ L).
  assert (Ed : dk a = dk b) by (destruct L as [(? & ? & ? & ?) ?]; auto).
  split; [|split].
  - intros c k Hk. rewrite (combine_counts a b t d1 c k), (combine_counts b a t d2 c k); auto.
    + ring.
    + now rewrite <- Ed.
  - intros c. assert (X := combine_points_at a b t d1 c L E1 H1).
    assert (Y := combine_points_at b a t d2 c L' E2 H2).
    rewrite <- !length_zero_iff_nil.
    destruct (Nat.eqb_spec (List.length (points_at a c)) 0), (Nat.eqb_spec (List.length (points_at b c)) 0); lia.
  - intros Da Db; split; intros c; specialize (Da c); specialize (Db c).
    + rewrite (combine_points_at a b t d1 c L E1 H1).
      destruct (Nat.eqb_spec (List.length (points_at a c)) 0); lia.
    + rewrite (combine_points_at b a t d2 c L' E2 H2).
      destruct (Nat.eqb_spec (List.length (points_at b c)) 0); lia.
Qed.
Print Assumptions C04_exact_commutes.

Example C04_ex : same_layout ex_a ex_b /\ exact_matching (TolScalar 0) ex_a ex_b /\
  (exists d, combine_inplace ex_a ex_b (TolScalar 0) = Ok d /\ counts_at d [0; 4] "detector" == 12) /\
  distinct_points ex_a.
Proof.
  repeat split; try apply C01_ex_wf.
  - eexists; split; [vm_compute; reflexivity|reflexivity].
  - intros c. unfold points_at. simpl.
    destruct (same_pos (pos ex_a [1; 4; 10; 100; 5]) c) eqn:E1, (same_pos (pos ex_a [0; 4; 7; 100; 5]) c) eqn:E2; simpl; auto.
    apply same_pos_iff in E1, E2. apply Forall2_Qeq_sym in E2.
    assert (X := Forall2_Qeq_trans _ _ _ E1 E2). inversion X; subst. discriminate H2.
Qed.

(** C04.  With the default tolerances addition is not commutative: the coordinates kept are those
    of the left operand. *)
Theorem C04_default_tolerance_commutes_refuted : exists a b ta tb,
  same_layout a b /\ combine_table a b TolDefault = Ok ta /\ combine_table b a TolDefault = Ok tb /\
  (exists ha, col ta "h" = Some [ha] /\ exists hb, col tb "h" = Some [hb] /\ ~ ha == hb).
Proof.
  exists (ex_data [[0; 4; 10; 100; 5]]), (ex_data [[4 # 10000; 4; 20; 100; 5]]).
  do 2 eexists. split.
  - apply ex_layout; repeat constructor.
  - split; [vm_compute; reflexivity|]. split; [vm_compute; reflexivity|].
    eexists; split; [reflexivity|]. eexists; split; [reflexivity|]. intros H; discriminate H.
Qed.
Print Assumptions C04_default_tolerance_commutes_refuted.

(** C04.  Equal points inside the added dataset are merged only if the receiving dataset has that
    point: the same two readings give one row or two. *)
Theorem C04_result_has_distinct_points_refuted : exists a b d',
  same_layout a b /\ distinct_points a /\ combine_inplace a b TolDefault = Ok d' /\ ~ distinct_points d'.
Proof.
  exists (ex_data [[1; 4; 10; 100; 5]]), (ex_data [[0; 4; 3; 50; 2]; [0; 4; 2; 50; 2]]).
  eexists. split; [|split; [|split; [vm_compute; reflexivity|]]].
  - apply ex_layout; repeat constructor.
  - intros c. unfold points_at. simpl. destruct (same_pos _ c); simpl; auto.
  - intros H. specialize (H [0; 4]). cbv in H. lia.
Qed.
Print Assumptions C04_result_has_distinct_points_refuted.

(** C02.  Coordinates are compared by position in the column order of each dataset, not by name:
    when the two datasets list their columns in a different order, points at different places are
    merged. *)
Theorem C02_columns_compared_by_name_refuted : exists a b tb,
  same_columns a b /\ combine_table a b TolDefault = Ok tb /\
  (exists r o, rows (tab a) = [r] /\ rows (tab b) = [o] /\
     lookup (keys (tab a)) r "h" = Some 0 /\ lookup (keys (tab b)) o "h" = Some 4) /\
  List.length (rows tb) = 1%nat.
Proof.
  exists (ex_data [[0; 4; 10; 100; 5]]).
  exists (mkData (mkTable ["e"; "h"; "detector"; "monitor"; "time"] [[0; 4; 10; 100; 5]]) default_dkeys 0 0 None false).
  eexists. split; [|split; [vm_compute; reflexivity|]].
  - assert (NoDup ex_keys) by (repeat constructor; simpl; intuition discriminate).
    assert (NoDup ["e"; "h"; "detector"; "monitor"; "time"]) by (repeat constructor; simpl; intuition discriminate).
    split; [split; [assumption|repeat constructor]|]. split; [split; [assumption|repeat constructor]|].
    split; [reflexivity|]. split; [simpl; tauto|]. split.
    { repeat constructor; simpl; intuition discriminate. }
    split; [simpl; intuition|]. unfold ncoords; simpl; lia.
  - split; [|reflexivity]. do 2 eexists. repeat split; reflexivity.
Qed.
Print Assumptions C02_columns_compared_by_name_refuted.

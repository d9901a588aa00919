(** Properties of rebinning (C08, C09). *)
From Coq Require Import String List QArith Qabs Qround Bool Arith Lia Lqa ZArith.
From Verif Require Import Base DataModel DataSpec DataProof CombineProof OpsModel OpsSpec OpsProof BinModel BinSpec BinProof.
Import ListNotations.
Local Open Scope string_scope.

Definition bks : list key := ["h"; "k"; "l"; "e"; "temp"; "detector"; "monitor"; "time"].
Definition bdata (rs : list (list Q)) (m : Q) : data := mkData (mkTable bks rs) default_dkeys m 1 None false.
Definition bd1 := bdata [[0; 0; 0; 4; 5; 10; 100; 1]; [1; 0; 0; 4; 5; 20; 50; 1]; [1 # 8; 0; 0; 4; 5; 30; 60; 1]] 100.
Lemma bks_nodup : NoDup bks. Proof. repeat constructor; simpl; intuition discriminate. Qed.
Lemma bd1_wf : wf_table (tab bd1). Proof. split; [exact bks_nodup|]. repeat constructor. Qed.

(** C08.  The number of worker processes is irrelevant. *)
Theorem C08_worker_count : forall P1 P2 d qk to_bin hk, (P1 <> 0)%nat -> (P2 <> 0)%nat ->
  bin_data P1 d qk to_bin hk = bin_data P2 d qk to_bin hk.
Proof. exact bin_nprocs. Qed.
Print Assumptions C08_worker_count.
Example C08_ex : exists b, bin_data 1 bd1 default_qkeys [("h", (0, 1, 5%nat))] true = Ok b /\
  bin_data 7 bd1 default_qkeys [("h", (0, 1, 5%nat))] true = Ok b /\ List.length (rows (tab (b_data b))) = 3%nat.
Proof. eexists. split; [vm_compute; reflexivity|]. split; [vm_compute; reflexivity|]. reflexivity. Qed.

(** C09.  The output rows are, in order, the cells that contain a measured point; each carries the
    cell centre in the binned columns, the mean over the points of the cell in every other column,
    and the mean of their squared errors; every cell with a measured point is present. *)
Theorem C09_cell_averages : forall P d qk to_bin hk b,
  (P <> 0)%nat -> wf_table (tab d) -> NoDup (bin_keys qk to_bin hk) ->
  (match err d with Some e => length e = length (rows (tab d)) | None => True end) ->
  bin_data P d qk to_bin hk = Ok b ->
  keys (tab (b_data b)) = keys (tab d) /\
  exists ranges cells,
    Forall2 (bin_range (tab d) to_bin) (bin_keys qk to_bin hk) ranges /\
    Forall (is_cell ranges) cells /\
    Forall2 (fun c r' => exists ms, members (keys (tab d)) (bin_keys qk to_bin hk) ranges c (rows (tab d)) ms /\
                                    ms <> [] /\ cell_row (keys (tab d)) (bin_keys qk to_bin hk) c ms r')
            cells (rows (tab (b_data b))) /\
    (exists es s, error_sq d = Ok (es, s) /\
       Forall2 (fun c e => cell_mean (keys (tab d)) (bin_keys qk to_bin hk) ranges c (rows (tab d)) es e)
               cells (b_errsq b)) /\
    (forall c r v, is_cell ranges c -> In r (rows (tab d)) -> at_keys (keys (tab d)) (bin_keys qk to_bin hk) r v ->
       within_cell ranges c v -> exists c', In c' cells /\ Forall2 Qeq c' c).
Proof. exact bin_rows. Qed.
Print Assumptions C09_cell_averages.
Example C09_ex : wf_table (tab bd1) /\ NoDup (bin_keys default_qkeys [("h", (0, 1, 2%nat))] true) /\
  exists b, bin_data 4 bd1 default_qkeys [("h", (0, 1, 2%nat))] true = Ok b /\
    match col (tab (b_data b)) "detector" with Some [a; b] => a == 20 /\ b == 20 | _ => False end.
Proof.
  split; [exact bd1_wf|]. split.
  - apply bin_keys_default. repeat constructor; simpl; tauto.
  - eexists. split; [vm_compute; reflexivity|]. vm_compute. split; reflexivity.
Qed.

(** C09.  With the default coordinate names the binned columns are the requested ones together with
    h, k, l, e and temp, each once. *)
Theorem C09_binned_columns : forall to_bin, NoDup (map fst to_bin) ->
  NoDup (bin_keys default_qkeys to_bin true) /\
  (forall k, In k (bin_keys default_qkeys to_bin true) <-> In k (map fst to_bin) \/ In k ["h"; "k"; "l"; "e"; "temp"]).
Proof. exact bin_keys_default. Qed.
Print Assumptions C09_binned_columns.
Example C09_binned_columns_ex : NoDup (map fst [("h", (0, 1, 2%nat)); ("detector", (0, 9, 3%nat))]).
Proof. repeat constructor; simpl; intuition discriminate. Qed.

(** C09.  Coverage: a point inside all ranges lies in some cell. *)
Theorem C09_every_point_covered : forall ranges v,
  Forall2 (fun r x => let '(lo, hi, n) := r in (1 <= n)%nat /\ lo <= x /\ x <= hi) ranges v ->
  exists c, is_cell ranges c /\ within_cell ranges c v.
Proof. exact cells_cover. Qed.
Print Assumptions C09_every_point_covered.
Example C09_covered_ex : Forall2 (fun (r : request) x => let '(lo, hi, n) := r in (1 <= n)%nat /\ lo <= x /\ x <= hi)
  [(0, 1, 4%nat); (2, 5, 1%nat)] [2 # 3; 4].
Proof. constructor; [split; [lia|]; split; vm_compute; discriminate|]. constructor; [split; [lia|]; split; vm_compute; discriminate|]. constructor. Qed.

(** C09.  Two different bins of an axis have at most their common boundary in common, and only if
    they are neighbours. *)
Theorem C09_bins_share_boundary : forall r i j ci cj x, 0 < width r ->
  (let '(_, _, n) := r in n <> 1%nat) -> (i < j)%nat ->
  is_centre r i ci -> is_centre r j cj -> Qabs (x - ci) <= width r / 2 -> Qabs (x - cj) <= width r / 2 ->
  j = S i /\ x == ci + width r / 2.
Proof. exact bins_share_boundary. Qed.
Print Assumptions C09_bins_share_boundary.
(** C09.  A point on the boundary belongs to both neighbours. *)
Theorem C09_boundary_in_both : forall r i ci cj, 0 <= width r -> (let '(_, _, n) := r in n <> 1%nat) ->
  is_centre r i ci -> is_centre r (S i) cj ->
  Qabs ((ci + width r / 2) - ci) <= width r / 2 /\ Qabs ((ci + width r / 2) - cj) <= width r / 2.
Proof. exact boundary_in_both. Qed.
Print Assumptions C09_boundary_in_both.
Example C09_boundary_ex : is_centre (0, 1, 3%nat) 0 0 /\ is_centre (0, 1, 3%nat) 1 (1 # 2) /\ width (0, 1, 3%nat) == 1 # 2.
Proof. unfold is_centre, width. simpl. repeat split; lia. Qed.

(** C09.  Hence counts are not conserved: one measured point with 10 counts on a boundary gives two
    output rows with 10 counts each. *)
Theorem C09_points_counted_once_refuted : exists d b,
  bin_data 1 d default_qkeys [("h", (0, 1, 2%nat))] true = Ok b /\
  col (tab d) "detector" = Some [10] /\
  match col (tab (b_data b)) "detector" with Some [x; y] => x == 10 /\ y == 10 | _ => False end.
Proof.
  exists (bdata [[1 # 2; 0; 0; 4; 5; 10; 100; 1]] 100). eexists. split; [vm_compute; reflexivity|].
  split; [reflexivity|]. vm_compute. split; reflexivity.
Qed.
Print Assumptions C09_points_counted_once_refuted.

(** C09.  The rebinned dataset keeps column names, roles and normalisation reference, so its
    intensity is averaged detector over averaged norm times the reference of the original. *)
Theorem C09_binned_intensity : forall P d qk to_bin hk b vals,
  ~ (if time_norm d then t0 d else m0 d) == 0 ->
  bin_data P d qk to_bin hk = Ok b -> binned_intensity b = Ok vals ->
  keys (tab (b_data b)) = keys (tab d) /\ dk (b_data b) = dk d /\ time_norm (b_data b) = time_norm d /\
  exists det nrm, col (tab (b_data b)) (kdet (dk d)) = Some det /\ col (tab (b_data b)) (norm_column d) = Some nrm /\
    Forall2 (fun ab v => normalised (if time_norm d then t0 d else m0 d) (fst ab) (snd ab) v) (List.combine det nrm) vals.
Proof.
  intros P d qk to_bin hk b vals Hr H Hi. unfold bin_data in H.
  destruct (map_res _ _); [|discriminate]. destruct (forallb _ _); [|discriminate].
  destruct (bin_keys qk to_bin hk); [discriminate|]. destruct (error_sq d) as [[es ?]|]; [|discriminate].
  inversion H; subst b; clear H. cbn [b_data tab keys dk time_norm]. repeat (split; [reflexivity|]).
  unfold binned_intensity in Hi. cbn [b_data] in Hi. destruct (intensity _) as [[v s]|] eqn:I; [|discriminate].
  inversion Hi; subst v; clear Hi. apply intensity_eq in I. destruct I as (det & nrm & m & E1 & E2 & E3 & -> & L).
  cbn [tab dk] in *. exists det, nrm. split; [exact E1|]. split; [exact E2|].
  unfold reference in E3. cbn [time_norm m0 t0] in E3.
  destruct (Qeq_bool (if time_norm d then t0 d else m0 d) 0) eqn:Z; [apply Qeq_bool_iff in Z; tauto|].
  inversion E3; subst. now apply fvals_normalised.
Qed.
Print Assumptions C09_binned_intensity.

(** C09.  Rebinning with one measured point per cell does not preserve the error: the normalised
    error is stored as raw error and normalised again when read. *)
Theorem C09_error_preserved_refuted : exists d b e1 s e2 i1 s' i2,
  bin_data 1 d default_qkeys [("h", (0, 1, 2%nat))] true = Ok b /\
  length (rows (tab (b_data b))) = length (rows (tab d)) /\
  intensity d = Ok (i1, s') /\ binned_intensity b = Ok i2 /\ Forall2 oeq i1 i2 /\
  error_sq d = Ok (e1, s) /\ binned_error_sq b = Ok e2 /\ ~ Forall2 oeq e1 e2.
Proof.
  exists (bdata [[0; 0; 0; 4; 5; 10; 100; 1]; [1; 0; 0; 4; 5; 20; 50; 1]] 100). do 7 eexists.
  split; [vm_compute; reflexivity|]. split; [reflexivity|]. split; [vm_compute; reflexivity|].
  split; [vm_compute; reflexivity|]. split; [repeat constructor|]. split; [vm_compute; reflexivity|].
  split; [vm_compute; reflexivity|].
  intros H. inversion H as [|? ? ? ? A B]. inversion B as [|? ? ? ? C D]. vm_compute in C. discriminate C.
Qed.
Print Assumptions C09_error_preserved_refuted.

(** C09.  A request for a coordinate whose column carries another name is ignored: the number of
    bins asked for has no influence. *)
Theorem C09_request_honoured_refuted : exists qk d b b',
  In ("h", "Qx") qk /\
  bin_data 1 d qk [("h", (0, 1, 2%nat))] true = Ok b /\
  bin_data 1 d qk [("h", (0, 1, 50%nat))] true = Ok b' /\
  length (rows (tab (b_data b))) = 1%nat /\ b = b'.
Proof.
  exists [("h", "Qx"); ("k", "k"); ("l", "l"); ("e", "e"); ("temp", "temp")],
    (mkData (mkTable ["Qx"; "k"; "l"; "e"; "temp"; "detector"; "monitor"; "time"]
               [[0; 0; 0; 4; 5; 10; 100; 1]; [1; 0; 0; 4; 5; 20; 50; 1]]) default_dkeys 100 1 None false).
  do 2 eexists. split; [now left|]. split; [vm_compute; reflexivity|]. split; [vm_compute; reflexivity|].
  split; reflexivity.
Qed.
Print Assumptions C09_request_honoured_refuted.

(** Properties of reading GRASP's nxs files (C110). *)
From Coq Require Import String List QArith Qabs Bool Arith Lia Permutation Sorted.
From Verif Require Import Base DataModel DataSpec OpsModel CombineProps NxsModel.
Import ListNotations.
Local Open Scope string_scope.

(** The six datasets of a file. *)
Definition stored : list (string * string) :=
  [("intensity", "entry0/data1/intensity1"); ("qx", "entry0/data1/qx1"); ("qy", "entry0/data1/qy1");
   ("qangles", "entry0/data1/qangle1"); ("mod_q", "entry0/data1/mod_q1");
   ("err_intensity", "entry0/data1/err_intensity1")].

(** The dataset of a file which belongs to a column. *)
Definition holds (f : file) (c : key) (a : array) : Prop :=
  exists p, In (c, p) stored /\ dataset f p = Ok a.

(** Values agree as numbers and none is missing. *)
Definition numbers (vs : list (option Q)) (xs : list Q) : Prop :=
  Forall2 (fun v x => exists q, v = Some q /\ q == x) vs xs.

Lemma dataset_exn f p e : dataset f p = Err e -> e = KeyError.
Proof.
  induction f as [|[q a] f IH]; cbn; [intros [=]; congruence|].
  destruct (String.eqb q p); [discriminate|exact IH].
Qed.

Lemma load_ok f : forall g, load_nxs f = Ok g ->
  exists i qx qy qa mq er,
    dataset f "entry0/data1/intensity1" = Ok i /\ dataset f "entry0/data1/qx1" = Ok qx /\
    dataset f "entry0/data1/qy1" = Ok qy /\ dataset f "entry0/data1/qangle1" = Ok qa /\
    dataset f "entry0/data1/mod_q1" = Ok mq /\ dataset f "entry0/data1/err_intensity1" = Ok er /\
    g = mkGrasp [("intensity", squeeze i); ("qx", squeeze qx); ("qy", squeeze qy);
               ("qangles", squeeze qa); ("mod_q", squeeze mq); ("err_intensity", squeeze er);
               ("monitor", ones (squeeze i)); ("time", ones (squeeze i))]
              nxs_dkeys 0 0 (squeeze er) false.
Proof.
  intros g H. unfold load_nxs in H.
  destruct (dataset f "entry0/data1/intensity1") as [i|] eqn:E1; [|discriminate]. cbn [bind] in H.
  destruct (dataset f "entry0/data1/qx1") as [qx|] eqn:E2; [|discriminate]. cbn [bind] in H.
  destruct (dataset f "entry0/data1/qy1") as [qy|] eqn:E3; [|discriminate]. cbn [bind] in H.
  destruct (dataset f "entry0/data1/qangle1") as [qa|] eqn:E4; [|discriminate]. cbn [bind] in H.
  destruct (dataset f "entry0/data1/mod_q1") as [mq|] eqn:E5; [|discriminate]. cbn [bind] in H.
  destruct (dataset f "entry0/data1/err_intensity1") as [er|] eqn:E6; [|discriminate]. cbn [bind] in H.
  exists i, qx, qy, qa, mq, er. repeat (split; [reflexivity|]). congruence.
Qed.

(** C110.  A file is read exactly when its six datasets are there; otherwise the error is a
    KeyError. *)
Theorem C110_readable : forall f,
  ((exists g, load_nxs f = Ok g) <-> (forall c p, In (c, p) stored -> exists a, dataset f p = Ok a)) /\
  (forall e, load_nxs f = Err e -> e = KeyError).
Proof.
  intros f. split; [split|].
  - intros [g H]. destruct (load_ok f g H) as (i & qx & qy & qa & mq & er & H1 & H2 & H3 & H4 & H5 & H6 & _).
    intros c p I. cbn in I.
    repeat (destruct I as [I|I]; [injection I as <- <-; eauto|]). contradiction.
  - intros H. unfold load_nxs.
    destruct (H "intensity" "entry0/data1/intensity1") as [i ->]; [cbn; tauto|].
    destruct (H "qx" "entry0/data1/qx1") as [qx ->]; [cbn; tauto|].
    destruct (H "qy" "entry0/data1/qy1") as [qy ->]; [cbn; tauto|].
    destruct (H "qangles" "entry0/data1/qangle1") as [qa ->]; [cbn; tauto|].
    destruct (H "mod_q" "entry0/data1/mod_q1") as [mq ->]; [cbn; tauto|].
    destruct (H "err_intensity" "entry0/data1/err_intensity1") as [er ->]; [cbn; tauto|].
    cbn [bind]. eauto.
  - intros e H. unfold load_nxs in H.
    repeat match type of H with
    | bind (dataset f ?p) _ = _ =>
        let E := fresh in destruct (dataset f p) eqn:E; cbn [bind] in H;
        [|injection H as ->; exact (dataset_exn _ _ _ E)]
    end. discriminate.
Qed.
Print Assumptions C110_readable.

(** C110.  The columns are the stored numbers in the stored order, with axes of length one
    dropped; monitor and time are one for every number of the intensity; no other column exists,
    in particular none of the coordinates h, k, l, e, temp. *)
Theorem C110_columns : forall f g, load_nxs f = Ok g ->
  map fst (g_data g) = (map fst stored ++ ["monitor"; "time"])%list /\
  (forall c a, holds f c a -> exists b, g_col (g_data g) c = Ok b /\ vals b = vals a /\
     shape b = filter (fun n => negb (Nat.eqb n 1)) (shape a)) /\
  (forall c a, In c ["monitor"; "time"] -> holds f "intensity" a ->
     exists b, g_col (g_data g) c = Ok b /\ vals b = repeat 1 (List.length (vals a)) /\
     shape b = filter (fun n => negb (Nat.eqb n 1)) (shape a)) /\
  (forall c, In c ["h"; "k"; "l"; "e"; "temp"] -> g_coordinate g c = Err KeyError) /\
  g_Q g = Err KeyError.
Proof.
  intros f g H. destruct (load_ok f g H) as (i & qx & qy & qa & mq & er & H1 & H2 & H3 & H4 & H5 & H6 & ->).
  assert (R : forall (l : list Q), map (fun _ => 1) l = repeat 1 (List.length l)).
  { induction l; cbn; congruence. }
  split; [reflexivity|]. split; [|split; [|split]].
  - intros c a (p & I & D). cbn in I.
    repeat (destruct I as [I|I]; [injection I as <- <-;
      match goal with E : dataset f ?p = Ok ?x, E' : dataset f ?p = Ok a |- _ =>
        rewrite E in E'; injection E' as <-; exists (squeeze x); repeat split; reflexivity end|]).
    contradiction.
  - intros c a I (p & J & D).
    assert (p = "entry0/data1/intensity1") as ->.
    { cbn in J. repeat (destruct J as [J|J]; [try congruence|]). contradiction. }
    rewrite H1 in D. injection D as <-. exists (ones (squeeze i)).
    cbn in I. destruct I as [<-|[<-|[]]]; (split; [reflexivity|split; [apply R|reflexivity]]).
  - intros c I. cbn in I. repeat (destruct I as [<-|I]; [reflexivity|]). contradiction.
  - reflexivity.
Qed.
Print Assumptions C110_columns.

Lemma shape_eqb_refl s : shape_eqb s s = true.
Proof. induction s; cbn; [reflexivity|]. rewrite Nat.eqb_refl. exact IHs. Qed.

Lemma shape_eqb_eq s : forall s', shape_eqb s s' = true -> s = s'.
Proof.
  induction s as [|x s IH]; intros [|y s']; cbn; try discriminate; [reflexivity|].
  intros H. apply andb_prop in H as [A B]. apply Nat.eqb_eq in A as ->. f_equal. auto.
Qed.

Lemma max_ones l : fold_left qmax (map (fun _ : Q => 1) l) 1 = 1.
Proof. induction l; cbn; [reflexivity|exact IHl]. Qed.

Lemma by_ones (xs : list Q) : forall (ys : list Q), List.length xs = List.length ys ->
  numbers (zip_with (fun a b => option_map (fun q => q * 1) (fdiv a b)) xs (map (fun _ => 1) ys)) xs.
Proof.
  induction xs as [|x xs IH]; intros [|y ys] E; cbn in E; try discriminate; cbn; constructor.
  - exists (x / 1 * 1). split; [reflexivity|]. field.
  - apply IH. lia.
Qed.

(** C110.  Intensity and error are the stored ones, with either normalisation. *)
Theorem C110_values : forall f g i er tn, load_nxs f = Ok g ->
  holds f "intensity" i -> holds f "err_intensity" er -> vals i <> [] ->
  (exists vs, g_intensity (set_tn tn g) = Ok (shape (squeeze i), vs) /\ numbers vs (vals i)) /\
  (shape (squeeze er) = shape (squeeze i) -> List.length (vals er) = List.length (vals i) ->
   exists vs, g_error (set_tn tn g) = Ok (shape (squeeze er), vs) /\ numbers vs (vals er)).
Proof.
  intros f g i er tn H (p & J & D) (p' & J' & D') N.
  destruct (load_ok f g H) as (i0 & qx & qy & qa & mq & er0 & H1 & H2 & H3 & H4 & H5 & H6 & ->).
  assert (p = "entry0/data1/intensity1") as ->.
  { cbn in J. repeat (destruct J as [J|J]; [try congruence|]). contradiction. }
  assert (p' = "entry0/data1/err_intensity1") as ->.
  { cbn in J'. repeat (destruct J' as [J'|J']; [try congruence|]). contradiction. }
  rewrite H1 in D. injection D as ->. rewrite H6 in D'. injection D' as ->.
  assert (R : g_reference (set_tn tn (mkGrasp [("intensity", squeeze i); ("qx", squeeze qx); ("qy", squeeze qy);
               ("qangles", squeeze qa); ("mod_q", squeeze mq); ("err_intensity", squeeze er);
               ("monitor", ones (squeeze i)); ("time", ones (squeeze i))]
              nxs_dkeys 0 0 (squeeze er) false)) = Ok 1).
  { destruct (vals i) as [|x l] eqn:V; [contradiction|].
    destruct tn; cbn; rewrite V; cbn; rewrite max_ones; reflexivity. }
  split.
  - unfold g_intensity. rewrite R. cbn [bind].
    exists (zip_with (fun a b => option_map (fun q => q * 1) (fdiv a b)) (vals i) (map (fun _ => 1) (vals i))).
    split; [|apply by_ones; reflexivity].
    destruct tn; cbn; unfold normalised; cbn; rewrite shape_eqb_refl; reflexivity.
  - intros S L. unfold g_error. rewrite R. cbn [bind].
    exists (zip_with (fun a b => option_map (fun q => q * 1) (fdiv a b)) (vals er) (map (fun _ => 1) (vals i))).
    split; [|apply by_ones; exact L].
    cbn in S. destruct tn; cbn; unfold normalised; cbn; rewrite S, shape_eqb_refl; reflexivity.
Qed.
Print Assumptions C110_values.

(** C110.  A file without numbers can be read, its intensity and error cannot. *)
Theorem C110_empty : forall f g i tn, load_nxs f = Ok g -> holds f "intensity" i -> vals i = [] ->
  g_intensity (set_tn tn g) = Err ValueError /\ g_error (set_tn tn g) = Err ValueError.
Proof.
  intros f g i tn H (p & J & D) N.
  destruct (load_ok f g H) as (i0 & qx & qy & qa & mq & er0 & H1 & H2 & H3 & H4 & H5 & H6 & ->).
  assert (p = "entry0/data1/intensity1") as ->.
  { cbn in J. repeat (destruct J as [J|J]; [try congruence|]). contradiction. }
  rewrite H1 in D. injection D as ->.
  destruct i as [s v]. cbn in N. subst v. destruct tn; split; reflexivity.
Qed.
Print Assumptions C110_empty.

(** ** Two files *)

(** Point number [n] of a file: one number of a column. *)
Definition entry (f : file) (c : key) (n : nat) : Q :=
  match find (fun cp => String.eqb (fst cp) c) stored with
  | Some (_, p) => match dataset f p with Ok a => nth n (vals a) 0 | Err _ => 0 end
  | None => 0
  end.

(** Point [m] of the second file agrees with point [n] of the first: the four coordinates and the
    error of the intensity. *)
Definition agrees (q : Q) (f1 : file) (n : nat) (f2 : file) (m : nat) : Prop :=
  forall c, In c ["qx"; "qy"; "qangles"; "mod_q"; "err_intensity"] ->
    Qabs (entry f1 c n - entry f2 c m) <= q.

(** A file of points: every dataset is a list of [n] numbers, up to axes of length one. *)
Definition of_points (f : file) (n : nat) : Prop :=
  forall c p, In (c, p) stored -> exists a, dataset f p = Ok a /\
    filter (fun k => negb (Nat.eqb k 1)) (shape a) = [n] /\ List.length (vals a) = n.

Definition point (f : file) (n : nat) : list Q :=
  [entry f "intensity" n; entry f "qx" n; entry f "qy" n; entry f "qangles" n; entry f "mod_q" n;
   entry f "err_intensity" n; 1; 1].
Definition nxs_keys : list key :=
  ["intensity"; "qx"; "qy"; "qangles"; "mod_q"; "err_intensity"; "monitor"; "time"].

Lemma nth_ones n l : (n < List.length l)%nat -> nth n (map (fun _ : Q => 1) l) 0 = 1.
Proof. revert n; induction l as [|x l IH]; intros [|n] L; cbn in *; try lia; [reflexivity|]. apply IH. lia. Qed.

Lemma points_data f n : of_points f n -> exists g er,
  load_nxs f = Ok g /\ List.length (g_data g) = 8%nat /\
  dataset f "entry0/data1/err_intensity1" = Ok er /\
  as_data g = Some (mkData (mkTable nxs_keys (map (point f) (seq 0 n))) nxs_dkeys 0 0 (Some (vals er)) false).
Proof.
  intros P.
  destruct (P "intensity" "entry0/data1/intensity1") as (i & D1 & S1 & L1); [cbn; tauto|].
  destruct (P "qx" "entry0/data1/qx1") as (qx & D2 & S2 & L2); [cbn; tauto|].
  destruct (P "qy" "entry0/data1/qy1") as (qy & D3 & S3 & L3); [cbn; tauto|].
  destruct (P "qangles" "entry0/data1/qangle1") as (qa & D4 & S4 & L4); [cbn; tauto|].
  destruct (P "mod_q" "entry0/data1/mod_q1") as (mq & D5 & S5 & L5); [cbn; tauto|].
  destruct (P "err_intensity" "entry0/data1/err_intensity1") as (er & D6 & S6 & L6); [cbn; tauto|].
  eexists. exists er. split.
  { unfold load_nxs. rewrite D1, D2, D3, D4, D5, D6. cbn [bind]. reflexivity. }
  split; [reflexivity|]. split; [exact D6|].
  unfold as_data. cbn [g_data squeeze shape ones g_err g_dk g_m0 g_t0 g_tn vals]. rewrite S1.
  cbn [forallb snd squeeze shape ones vals]. rewrite S1, S2, S3, S4, S5, S6, map_length, L1, L2, L3, L4, L5, L6.
  cbn [shape_eqb]. rewrite Nat.eqb_refl. cbn [andb]. f_equal. f_equal. f_equal.
  apply map_ext_in. intros k I. apply in_seq in I. unfold point, entry, stored, squeeze, ones.
  cbn [find fst String.eqb Ascii.eqb Bool.eqb map snd vals]. rewrite D1, D2, D3, D4, D5, D6.
  rewrite !nth_ones by lia. reflexivity.
Qed.

Lemma near5 q x1 x2 x3 x4 x5 y1 y2 y3 y4 y5 :
  near [q; q; q; q; q] [x1; x2; x3; x4; x5] [y1; y2; y3; y4; y5] = true <->
  (Qabs (x1 - y1) <= q /\ Qabs (x2 - y2) <= q /\ Qabs (x3 - y3) <= q /\ Qabs (x4 - y4) <= q /\ Qabs (x5 - y5) <= q).
Proof.
  unfold near. cbn [List.combine forallb fst snd]. rewrite !andb_true_iff, !Qle_bool_iff. tauto.
Qed.

Lemma first_index_none {A} (p : A -> bool) l : first_index p l = None <-> forall x, In x l -> p x = false.
Proof.
  induction l as [|x l IH]; cbn; [split; [intros _ x []|reflexivity]|].
  destruct (p x) eqn:E.
  - split; [discriminate|]. intros H. specialize (H x (or_introl eq_refl)). congruence.
  - destruct (first_index p l) eqn:F; cbn.
    + split; [discriminate|]. intros H. assert (Some n = None) by (apply IH; intros y J; apply H; right; exact J). discriminate.
    + split; [|reflexivity]. intros _ y [<-|J]; [exact E|]. apply (proj1 IH eq_refl y J).
Qed.

Lemma filter_length_map {A B} (f : A -> B) (p : B -> bool) l :
  List.length (filter p (map f l)) = List.length (filter (fun a => p (f a)) l).
Proof. induction l as [|a l IH]; cbn; [reflexivity|]. destruct (p (f a)); cbn; rewrite IH; reflexivity. Qed.

(** C110.  Two files of points, read together with tolerance [q]: every point of the second file
    is either merged into a point of the first one with which it agrees, also in the error of the
    intensity, or becomes a point of its own ([alone] are those).  The intensities add up, the
    points are in increasing order of the error, and the errors reported are still the list of
    the first file. *)
Theorem C110_two : forall f1 f2 n1 n2 q, of_points f1 n1 -> of_points f2 n2 ->
  exists d alone, load_two f1 f2 q = Some (Ok d) /\
    keys (tab d) = (map fst stored ++ ["monitor"; "time"])%list /\
    List.length (rows (tab d)) = (n1 + List.length alone)%nat /\
    (NoDup alone /\ forall m, In m alone <->
       (m < n2)%nat /\ forall n, (n < n1)%nat -> ~ agrees q f1 n f2 m) /\
    (forall c, col (tab d) "intensity" = Some c ->
       Qsum c == Qsum (map (entry f1 "intensity") (seq 0 n1)) + Qsum (map (entry f2 "intensity") (seq 0 n2))) /\
    (forall c, col (tab d) "err_intensity" = Some c -> StronglySorted Qle c) /\
    err d = Some (map (entry f1 "err_intensity") (seq 0 n1)).
Proof.
  intros f1 f2 n1 n2 q P1 P2.
  destruct (points_data f1 n1 P1) as (g1 & er1 & L1 & N1 & D1 & A1).
  destruct (points_data f2 n2 P2) as (g2 & er2 & L2 & N2 & D2 & A2).
  set (d1 := mkData _ _ _ _ (Some (vals er1)) _) in A1.
  set (d2 := mkData _ _ _ _ (Some (vals er2)) _) in A2.
  assert (ND : NoDup nxs_keys) by (repeat constructor; cbn; intuition discriminate).
  assert (W1 : wf_table (tab d1)).
  { split; [exact ND|]. apply Forall_forall. intros r I. apply in_map_iff in I as (k & <- & _). reflexivity. }
  assert (W2 : wf_table (tab d2)).
  { split; [exact ND|]. apply Forall_forall. intros r I. apply in_map_iff in I as (k & <- & _). reflexivity. }
  assert (SC : same_columns d1 d2).
  { split; [exact W1|]. split; [exact W2|]. split; [reflexivity|]. split; [intros k; cbn; tauto|].
    split; [repeat constructor; cbn; intuition discriminate|]. split; [cbn; intuition|].
    unfold ncoords; cbn; lia. }
  assert (ET : effective_tols (TolSeq (repeat q 5)) (List.length (keys (tab d2))) (ncoords d1) (repeat q 5)).
  { cbn. left. split; reflexivity. }
  destruct (C01_combine_succeeds d1 d2 _ _ SC ET) as [tb C].
  destruct (C02_row_correspondence d1 d2 _ _ tb W1 W2 ET C) as (merged & appended & K & Pm & Lm & Gm & Ap).
  set (alone := filter (fun m => match partner (repeat q 5) d1 d2 (point f2 m) with Some _ => false | None => true end) (seq 0 n2)).
  exists (mkData tb (dk d1) (m0 d1) (t0 d1) (err d1) (time_norm d1)), alone.
  split; [|split; [|split; [|split; [|split; [|split]]]]].
  - unfold load_two. rewrite L1, L2, A1, A2. unfold file_tols. rewrite N1. cbn [Nat.sub].
    unfold combine_inplace. rewrite C. reflexivity.
  - exact K.
  - cbn [tab]. rewrite (Permutation_length Pm), app_length, Lm.
    replace (List.length appended) with (List.length (unmatched (repeat q 5) d1 d2))
      by (clear - Ap; induction Ap; cbn; congruence).
    unfold unmatched, d1 at 1, d2 at 2. cbn [tab rows]. rewrite map_length, seq_length, filter_length_map. reflexivity.
  - split; [apply NoDup_filter, seq_NoDup|].
    intros m. unfold alone. rewrite filter_In, in_seq.
    assert (X : (match partner (repeat q 5) d1 d2 (point f2 m) with Some _ => false | None => true end) = true <->
                forall n, (n < n1)%nat -> ~ agrees q f1 n f2 m).
    { transitivity (partner (repeat q 5) d1 d2 (point f2 m) = None).
      { destruct (partner _ _ _ _); intuition discriminate. }
      unfold partner. rewrite first_index_none.
      assert (Y : forall n, near (repeat q 5) (pos d1 (point f1 n)) (pos d2 (point f2 m)) = true <-> agrees q f1 n f2 m).
      { intros n. etransitivity; [apply near5|]. unfold agrees. split.
        - intros (H1 & H2 & H3 & H4 & H5) c I. cbn in I.
          repeat (destruct I as [<-|I]; [assumption|]). contradiction.
        - intros H. repeat split; apply H; cbn; tauto. }
      split.
      - intros H n Ln G. apply Y in G.
        rewrite (H (point f1 n)) in G; [discriminate|]. unfold d1. cbn [tab rows]. apply in_map, in_seq. lia.
      - intros H r I. unfold d1 in I. cbn [tab rows] in I. apply in_map_iff in I as (n & <- & J).
        apply in_seq in J. destruct (near _ _ _) eqn:E; [|reflexivity].
        apply Y in E. exfalso. apply (H n); [lia|exact E]. }
    rewrite X. intuition lia.
  - intros c Ec. cbn [tab] in Ec.
    assert (COL : forall f n d, tab d = mkTable nxs_keys (map (point f) (seq 0 n)) ->
                  col (tab d) "intensity" = Some (map (entry f "intensity") (seq 0 n))).
    { intros f n d ->. unfold col. cbn [keys rows]. change (mem "intensity" nxs_keys) with true. cbn iota.
      rewrite map_map. reflexivity. }
    destruct (C01_counts_conserved d1 d2 _ tb "intensity" (map (entry f1 "intensity") (seq 0 n1))
                (map (entry f2 "intensity") (seq 0 n2)) W1 C) as (c' & E & Hs);
      [cbn; tauto|apply COL; reflexivity|apply COL; reflexivity|].
    rewrite E in Ec. injection Ec as <-. exact Hs.
  - intros c Ec. cbn [tab] in Ec.
    pose proof (C03_sorted d1 d2 _ tb W1 C) as S.
    assert (LR : Forall (fun r => List.length r = 8%nat) (rows tb)).
    { apply Forall_forall. intros r I. apply (Permutation_in _ Pm) in I. apply in_app_or in I as [I|I].
      - apply In_nth_error in I as [j J].
        assert (j < List.length (rows (tab d1)))%nat.
        { rewrite <- Lm. apply nth_error_Some. congruence. }
        destruct (nth_error (rows (tab d1)) j) as [r0|] eqn:R0; [|apply nth_error_None in R0; lia].
        destruct (Gm j r0 R0) as (r' & J' & Lr & _). rewrite J in J'. injection J' as <-. exact Lr.
      - clear - Ap I. induction Ap as [|o r' os rs [Hl _] _ IH]; [contradiction|].
        destruct I as [<-|I]; [exact Hl|exact (IH I)]. }
    unfold col in Ec. rewrite K in Ec. change (mem "err_intensity" (keys (tab d1))) with true in Ec.
    cbn iota in Ec. injection Ec as <-. change (keys (tab d1)) with nxs_keys.
    clear - S LR. induction S as [|r rs _ IH F]; cbn [map]; constructor.
    + apply IH. inversion LR; assumption.
    + inversion LR as [|? ? Lr LR']; subst. clear IH LR. induction F as [|s ss G _ IH]; cbn [map]; constructor.
      * inversion LR' as [|? ? Ls ?]; subst.
        destruct r as [|a0 [|a1 [|a2 [|a3 [|a4 [|a5 [|a6 [|a7 [|]]]]]]]]]; try discriminate.
        destruct s as [|b0 [|b1 [|b2 [|b3 [|b4 [|b5 [|b6 [|b7 [|]]]]]]]]]; try discriminate.
        cbn. change (lex_le [a5; a4; a3; a2; a1] [b5; b4; b3; b2; b1]) in G.
        inversion G; subst; [apply Qlt_le_weak; assumption|].
        match goal with E : a5 == b5 |- _ => rewrite E end. apply Qle_refl.
      * apply IH. inversion LR'; assumption.
  - cbn [err]. change (err d1) with (Some (vals er1)). f_equal.
    assert (X : forall n, entry f1 "err_intensity" n = nth n (vals er1) 0).
    { intros n. unfold entry. cbn. rewrite D1. reflexivity. }
    destruct (P1 "err_intensity" "entry0/data1/err_intensity1") as (a & Ea & _ & La); [cbn; tauto|].
    rewrite D1 in Ea. injection Ea as <-.
    rewrite (map_ext _ (fun n => nth n (vals er1) 0)) by exact X. rewrite <- La.
    clear. generalize (vals er1). intros l. induction l as [|x l IH]; [reflexivity|].
    cbn [List.length seq map nth]. f_equal. rewrite <- seq_shift, map_map. exact IH.
Qed.
Print Assumptions C110_two.

(** ** Cases *)

(** A file of points with the given columns, stored with an axis of length one. *)
Definition mk_file (i qx qy qa mq er : list Q) : file :=
  let a l := mkArr [1%nat; List.length l] l in
  [("entry0/data1/err_intensity1", a er); ("entry0/data1/intensity1", a i); ("entry0/data1/qx1", a qx);
   ("entry0/data1/qy1", a qy); ("entry0/data1/qangle1", a qa); ("entry0/data1/mod_q1", a mq)].

Definition f_a : file := mk_file [10; 20; 30] [1; 2; 3] [0; 0; 0] [90; 90; 90] [1; 2; 3] [3; 4; 2].
Definition f_b : file := mk_file [7; 5; 6] [1; 2; 4] [0; 0; 0] [90; 90; 90] [1; 2; 4] [3; 9; 1].

Lemma mk_points i qx qy qa mq er n : n <> 1%nat ->
  Forall (fun l => List.length l = n) [i; qx; qy; qa; mq; er] -> of_points (mk_file i qx qy qa mq er) n.
Proof.
  intros N F c p I.
  assert (S : forall l : list Q, List.length l = n ->
    filter (fun k => negb (Nat.eqb k 1)) [1%nat; List.length l] = [n] /\ List.length l = n).
  { intros l <-. split; [|reflexivity]. cbn. destruct (Nat.eqb_spec (List.length l) 1); [contradiction|reflexivity]. }
  rewrite Forall_forall in F.
  cbn in I. repeat (destruct I as [I|I]; [injection I as <- <-; eexists; split; [reflexivity|]; apply S, F; cbn; tauto|]).
  contradiction.
Qed.

Example C110_case : of_points f_a 3 /\ of_points f_b 3 /\
  (exists g, load_nxs f_a = Ok g /\ g_error g = Ok ([3%nat], [Some (3 / 1 * 1); Some (4 / 1 * 1); Some (2 / 1 * 1)])) /\
  (exists d, load_two f_a f_b (1 # 10000) = Some (Ok d) /\
     col (tab d) "intensity" = Some [6; 30; 10 + 7; 20; 5] /\ col (tab d) "err_intensity" = Some [1; 2; 3; 4; 9] /\
     err d = Some [3; 4; 2]).
Proof.
  split; [apply mk_points; [discriminate|repeat constructor]|].
  split; [apply mk_points; [discriminate|repeat constructor]|].
  split; eexists; (split; [vm_compute; reflexivity|]); repeat split; vm_compute; reflexivity.
Qed.

(** C110.  Two measurements of the same pixel are not added when their errors differ. *)
Theorem C110_merge_refuted : exists f1 f2 n d,
  of_points f1 n /\ of_points f2 n /\
  (forall c m, In c ["qx"; "qy"; "qangles"; "mod_q"] -> (m < n)%nat -> entry f1 c m = entry f2 c m) /\
  load_two f1 f2 (1 # 10000) = Some (Ok d) /\ List.length (rows (tab d)) = (n + n)%nat.
Proof.
  exists (mk_file [10; 20] [1; 2] [0; 0] [90; 90] [1; 2] [3; 4]),
         (mk_file [11; 21] [1; 2] [0; 0] [90; 90] [1; 2] [4; 5]), 2%nat.
  eexists. split; [apply mk_points; [discriminate|repeat constructor]|].
  split; [apply mk_points; [discriminate|repeat constructor]|].
  split; [|split; [vm_compute; reflexivity|vm_compute; reflexivity]].
  intros c m I L. cbn in I. destruct m as [|[|m]]; [| |lia];
    (repeat (destruct I as [<-|I]; [reflexivity|])); contradiction.
Qed.
Print Assumptions C110_merge_refuted.

(** C110.  After a file was read twice the errors reported do not belong to the points: the
    points were reordered, the errors were not. *)
Theorem C110_errors_refuted : exists f n d c es,
  of_points f n /\ load_two f f (1 # 10000) = Some (Ok d) /\ col (tab d) "err_intensity" = Some c /\
  err d = Some es /\ List.length c = List.length es /\ c <> es.
Proof.
  exists (mk_file [10; 20] [1; 2] [0; 0] [90; 90] [1; 2] [4; 3]), 2%nat.
  eexists. eexists. eexists. split; [apply mk_points; [discriminate|repeat constructor]|].
  split; [vm_compute; reflexivity|]. split; [vm_compute; reflexivity|]. split; [vm_compute; reflexivity|].
  split; [reflexivity|discriminate].
Qed.
Print Assumptions C110_errors_refuted.

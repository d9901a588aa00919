(** C100: datasets as hdf5 files. *)
From Coq Require Import String Ascii List Arith Bool QArith Lia Sorting.Sorted Permutation NArith.
From Verif Require Import Base TextModel InstrFileModel H5InstrModel H5InstrProps DataFileModel H5DataModel.
Import ListNotations.
Local Open Scope string_scope.
Local Open Scope nat_scope.

(** ** The order of names *)
Definition before (a b : string) : Prop := String.compare a b = Lt.
Lemma ascii_trans a b c : Ascii.compare a b = Lt -> Ascii.compare b c = Lt -> Ascii.compare a c = Lt.
Proof. unfold Ascii.compare. rewrite !N.compare_lt_iff. apply N.lt_trans. Qed.
Lemma ascii_refl a : Ascii.compare a a = Eq.
Proof. unfold Ascii.compare. apply N.compare_refl. Qed.
Lemma before_trans a b c : before a b -> before b c -> before a c.
Proof.
  unfold before. revert b c. induction a as [|x a IH]; intros [|y b] [|z c]; cbn; try discriminate; auto.
  destruct (Ascii.compare x y) eqn:E1; destruct (Ascii.compare y z) eqn:E2; try discriminate; intros H1 H2.
  - apply Ascii.compare_eq_iff in E1, E2. subst. rewrite ascii_refl. eauto.
  - apply Ascii.compare_eq_iff in E1. subst. rewrite E2. reflexivity.
  - apply Ascii.compare_eq_iff in E2. subst. rewrite E1. reflexivity.
  - rewrite (ascii_trans _ _ _ E1 E2). reflexivity.
Qed.
Lemma before_irrefl a : ~ before a a.
Proof. unfold before. induction a as [|x a IH]; cbn; [discriminate|]. rewrite ascii_refl. exact IH. Qed.
Lemma leb_before a b : a <> b -> (String.leb a b = true <-> before a b).
Proof.
  intros N. unfold String.leb, before. destruct (String.compare a b) eqn:E; split; try reflexivity; try discriminate.
  intros _. apply String.compare_eq_iff in E. contradiction.
Qed.
Lemma before_total a b : a <> b -> String.leb a b = false -> before b a.
Proof.
  intros N. unfold String.leb, before. rewrite (String.compare_antisym b a). destruct (String.compare a b); try discriminate. reflexivity.
Qed.
Lemma insert_perm p l : Permutation (insert p l) (p :: l).
Proof. induction l as [|q r IH]; cbn; [reflexivity|]. destruct (String.leb _ _); [reflexivity|]. rewrite IH. apply perm_swap. Qed.
Lemma by_name_perm l : Permutation (by_name l) l.
Proof. unfold by_name. induction l as [|p l IH]; cbn; [reflexivity|]. rewrite insert_perm, IH. reflexivity. Qed.
Definition ordered (l : list (string * cell)) : Prop := StronglySorted before (map fst l).
Lemma insert_ordered p l : ~ In (fst p) (map fst l) -> ordered l -> ordered (insert p l).
Proof.
  unfold ordered. induction l as [|q r IH]; cbn; intros N S; [repeat constructor|]. inversion S as [|? ? S1 S2]; subst.
  destruct (String.leb (fst p) (fst q)) eqn:E; cbn [map].
  - assert (B : before (fst p) (fst q)) by (apply leb_before; [intros X; apply N; left; congruence|exact E]).
    constructor; [exact S|]. constructor; [exact B|]. eapply Forall_impl; [|exact S2]. intros x. apply before_trans, B.
  - assert (B : before (fst q) (fst p)) by (apply before_total; [intros X; apply N; left; congruence|exact E]).
    constructor; [apply IH; auto|]. apply (Permutation_Forall (Permutation_map fst (Permutation_sym (insert_perm p r)))). constructor; auto.
Qed.
Lemma by_name_ordered l : NoDup (map fst l) -> ordered (by_name l).
Proof.
  unfold by_name. induction l as [|p l IH]; cbn; intros N; [constructor|]. inversion N as [|? ? N1 N2]; subst. apply insert_ordered; [|auto].
  intros X. apply N1. eapply Permutation_in; [|exact X]. apply Permutation_map, (by_name_perm l).
Qed.
Lemma get_in k c l : NoDup (map fst l) -> (get_col k l = Some c <-> In (k, c) l).
Proof.
  induction l as [|[k' c'] l IH]; cbn; intros N; [split; [discriminate|intros []]|]. inversion N as [|? ? N1 N2]; subst. destruct (String.eqb_spec k' k) as [->|X].
  - split; [intros H; injection H as ->; auto|]. intros [H|H]; [injection H as ->; reflexivity|]. exfalso. apply N1. apply in_map_iff. exists (k, c). auto.
  - rewrite IH by exact N2. split; auto. intros [H|H]; [congruence|exact H].
Qed.
Lemma get_none k l : get_col k l = None <-> ~ In k (map fst l).
Proof.
  induction l as [|[k' c'] l IH]; cbn; [tauto|]. destruct (String.eqb_spec k' k) as [->|X]; [split; [discriminate|tauto]|]. rewrite IH. split; [intros H [E|E]; auto|auto].
Qed.
Lemma get_perm k l l' : NoDup (map fst l) -> Permutation l l' -> get_col k l = get_col k l'.
Proof.
  intros N P. assert (N' : NoDup (map fst l')) by (eapply Permutation_NoDup; [apply Permutation_map, P|exact N]).
  destruct (get_col k l) as [c|] eqn:E; symmetry.
  - apply get_in; auto. eapply Permutation_in; [exact P|]. apply get_in; auto.
  - apply get_none. apply get_none in E. intros X. apply E. eapply Permutation_in; [apply Permutation_map, Permutation_sym, P|exact X].
Qed.
Lemma get_by_name k l : NoDup (map fst l) -> get_col k (by_name l) = get_col k l.
Proof. intros N. symmetry. apply get_perm; [exact N|]. symmetry. apply by_name_perm. Qed.

(** ** What can be saved *)
(** The columns of a dataset and, under the name error, the errors it was given. *)
Definition contents (D : dset) : list (string * cell) := List.app (cols D) (match uerr D with ErrVal e => [("error", Col e)] | _ => [] end).
(** Names are different from each other and from those of the two groups; there is no None. *)
Definition writable (D : dset) : Prop :=
  uerr D <> ErrNone /\ NoDup (map fst (contents D)) /\ ~ In "data_keys" (map fst (cols D)) /\ (qks D <> None -> ~ In "Q_keys" (map fst (cols D))) /\
  forall k c, In (k, c) (cols D) -> c <> PyNone.
(** A file into which the data go: one to be overwritten, none, or one without data. *)
Definition free (name : string) (overwrite : bool) (f : h5s) : Prop :=
  overwrite = true \/ forall h, f (name ++ ".h5") = Some h -> f_data h = None.

Lemma mem_in k l : mem k l = true <-> In k l.
Proof. unfold mem. rewrite existsb_exists. split; [intros (x & H & E); apply String.eqb_eq in E; subst; exact H|intros H; exists k; rewrite String.eqb_refl; auto]. Qed.
Lemma mem_notin k l : mem k l = false <-> ~ In k l.
Proof. rewrite <- mem_in. destruct (mem k l); split; congruence. Qed.
Lemma make_all_iff l used : snd (make_all used l) = Ok tt <->
  NoDup (map fst l) /\ (forall k, In k used -> ~ In k (map fst l)) /\ (forall k c, In (k, c) l -> c <> PyNone).
Proof.
  revert used. induction l as [|[k c] l IH]; intros used.
  - cbn. split; [intros _|reflexivity]. repeat split; [constructor|tauto|tauto].
  - assert (K : snd (make_all used ((k, c) :: l)) = Ok tt <-> c <> PyNone /\ ~ In k used /\ snd (make_all (k :: used) l) = Ok tt).
    { cbn [make_all]. destruct (make_all (k :: used) l) as [m o]. destruct (mem k used) eqn:M; [apply mem_in in M|apply mem_notin in M]; destruct c; cbn [snd]; split; try (intros [? ?]; tauto); try discriminate; try (intros H; repeat split; congruence). }
    rewrite K, IH. cbn [map fst]. split.
    + intros (C & U & N & A & B). split; [constructor; [apply A; left; reflexivity|exact N]|]. split.
      * intros x X [<-|Y]; [contradiction|]. apply (A x); [right; exact X|exact Y].
      * intros x y [H|H]; [congruence|exact (B x y H)].
    + intros (N & A & B). inversion N as [|? ? N1 N2]; subst. split; [apply (B k c); left; reflexivity|]. split; [intros X; apply (A k X); left; reflexivity|]. split; [exact N2|]. split.
      * intros x [<-|X] Y; [contradiction|]. apply (A x X). right. exact Y.
      * intros x y H. apply (B x y). right. exact H.
Qed.
Lemma make_all_ok l used : snd (make_all used l) = Ok tt -> make_all used l = (l, Ok tt).
Proof.
  revert used. induction l as [|[k c] l IH]; intros used H; [reflexivity|]. cbn [make_all] in *. specialize (IH (k :: used)). destruct (make_all (k :: used) l) as [m o].
  destruct c, (mem k used); cbn [snd] in *; try discriminate; specialize (IH H); injection IH as -> ->; reflexivity.
Qed.
(** The names of the two groups of a dataset. *)
Definition taken (D : dset) : list string := "data_keys" :: match qks D with Some _ => ["Q_keys"] | None => [] end.
Lemma make_writable D : snd (make_all (taken D) (List.app (cols D) (own_errors D))) = Ok tt <-> writable D.
Proof.
  rewrite make_all_iff. unfold writable, contents, own_errors, taken. split.
  - intros (N & A & B). destruct (uerr D) as [| |e] eqn:U.
    + split; [discriminate|]. split; [exact N|]. rewrite app_nil_r in A, B. repeat split; [apply A; left; reflexivity| |exact B]. intros Q. destruct (qks D); [|congruence]. apply A. right. left. reflexivity.
    + exfalso. apply (B "error" PyNone); [apply in_or_app; right; left; reflexivity|reflexivity].
    + split; [discriminate|]. split; [exact N|]. rewrite map_app in A. repeat split.
      * intros X. apply (A "data_keys"); [left; reflexivity|apply in_or_app; left; exact X].
      * intros Q X. destruct (qks D); [|congruence]. apply (A "Q_keys"); [right; left; reflexivity|apply in_or_app; left; exact X].
      * intros k c H. apply (B k c). apply in_or_app. left. exact H.
  - intros (U & N & A & Q & B). destruct (uerr D) as [| |e] eqn:E; [|congruence|].
    + split; [exact N|]. rewrite app_nil_r. split; [|exact B]. intros k [<-|H]; [exact A|]. destruct (qks D); [|destruct H]. destruct H as [<-|[]]. apply Q. discriminate.
    + split; [exact N|]. split.
      * rewrite map_app. intros k H X. apply in_app_or in X. destruct X as [X|[<-|[]]].
        -- destruct H as [<-|H]; [contradiction|]. destruct (qks D); [|destruct H]. destruct H as [<-|[]]. apply Q in X; [exact X|discriminate].
        -- destruct H as [H|H]; [discriminate|]. destruct (qks D); [|destruct H]. destruct H as [H|[]]. discriminate.
      * intros k c H. apply in_app_or in H. destruct H as [H|[H|[]]]; [exact (B k c H)|]. injection H as <- <-. discriminate.
Qed.
Definition target (name : string) (overwrite : bool) (f : h5s) : h5 := match f (name ++ ".h5") with Some h => if overwrite then mkF None [] None else h | None => mkF None [] None end.
Lemma free_target name ow f : free name ow f -> f_data (target name ow f) = None.
Proof. unfold free, target. destruct (f (name ++ ".h5")) as [h|]; [|reflexivity]. intros [->|H]; [reflexivity|]. destruct ow; [reflexivity|]. apply H. reflexivity. Qed.
Lemma save_free name ow D f : free name ow f -> save_group name ow D f =
  (store f (name ++ ".h5") (mkF (Some (mkG (dks D) (qks D) (fst (make_all (taken D) (List.app (cols D) (own_errors D)))))) (f_rest (target name ow f)) (f_instr (target name ow f))),
   snd (make_all (taken D) (List.app (cols D) (own_errors D)))).
Proof.
  intros F. apply free_target in F. unfold save_group. fold (target name ow f). cbv zeta. rewrite F. fold (taken D). destruct (make_all _ _). reflexivity.
Qed.
Lemma own_contents D : uerr D <> ErrNone -> List.app (cols D) (own_errors D) = contents D.
Proof. unfold contents, own_errors. destruct (uerr D); congruence. Qed.
Lemma save_ok name ow D f : free name ow f -> writable D -> save_group name ow D f =
  (store f (name ++ ".h5") (mkF (Some (mkG (dks D) (qks D) (contents D))) (f_rest (target name ow f)) (f_instr (target name ow f))), Ok tt).
Proof.
  intros F W. rewrite save_free by exact F. assert (M := proj2 (make_writable D) W). apply make_all_ok in M. rewrite M. cbn [fst snd]. rewrite own_contents by apply W. reflexivity.
Qed.

(** Saving succeeds exactly for datasets without None whose names differ from each other and from those of the two groups; into a file that has data
    nothing is written. *)
Theorem C100_saves : forall name ow D a f,
  (free name ow f -> (snd (save_data_h5 name ow false D a f) = Ok tt <-> writable D)) /\
  (~ free name ow f -> forall si, save_data_h5 name ow si D a f = (f, Err ValueError)).
Proof.
  intros name ow D a f. split.
  - intros F. unfold save_data_h5. rewrite save_free by exact F. rewrite <- make_writable. destruct (make_all _ _) as [m [u|e]]; cbn [fst snd]; [destruct u; tauto|split; discriminate].
  - intros N si. assert (X : save_group name ow D f = (f, Err ValueError)); [|unfold save_data_h5; rewrite X; reflexivity].
    unfold save_group. destruct (f (name ++ ".h5")) as [h|] eqn:E.
    + destruct ow; [exfalso; apply N; left; reflexivity|]. destruct (f_data h) eqn:D'; [reflexivity|]. exfalso. apply N. right. intros h' H. rewrite E in H. injection H as <-. exact D'.
    + exfalso. apply N. right. intros h H. rewrite E in H. discriminate.
Qed.
Print Assumptions C100_saves.

(** ** What comes back *)
Lemma loaded_names D : writable D -> NoDup (map fst (("data_keys", Col []) :: List.app (match qks D with Some _ => [("Q_keys", Col [])] | None => [] end) (contents D))).
Proof.
  intros (U & N & A & Q & _).
  assert (H : forall k, k <> "error" -> ~ In k (map fst (cols D)) -> ~ In k (map fst (contents D))).
  { intros k E X. unfold contents. rewrite map_app. intros Y. apply in_app_or in Y. destruct Y as [Y|Y]; [contradiction|]. destruct (uerr D); try destruct Y; [auto|contradiction]. }
  cbn [map fst]. destruct (qks D); cbn [List.app map fst].
  - constructor; [intros [X|X]; [discriminate|revert X; apply H; [discriminate|exact A]]|]. constructor; [apply H; [discriminate|apply Q; discriminate]|exact N].
  - constructor; [apply H; [discriminate|exact A]|exact N].
Qed.
Lemma load_saved build D f name ow : free name ow f -> writable D -> forall g, save_group name ow D f = (g, Ok tt) ->
  load_data_h5 build false (name ++ ".h5") g = Ok (load_group5 build (mkG (dks D) (qks D) (contents D)), None).
Proof. intros F W g H. rewrite save_ok in H by assumption. injection H as <-. unfold load_data_h5, store. rewrite String.eqb_refl. reflexivity. Qed.

(** Every column and the errors come back, in the order of their names, and with them a column without entries for each of the two dictionaries;
    the errors are a column now and the header is lost.  No other file is touched. *)
Theorem C100_roundtrip : forall name ow D a f build, free name ow f -> writable D ->
  exists f' E, save_data_h5 name ow false D a f = (f', Ok tt) /\ (forall n, n <> name ++ ".h5" -> f' n = f n) /\
    load_data_h5 build false (name ++ ".h5") f' = Ok (E, None) /\ StronglySorted before (map fst (cols E)) /\
    (forall k, k <> "data_keys" -> k <> "Q_keys" \/ qks D = None -> get_col k (cols E) = get_col k (contents D)) /\
    get_col "data_keys" (cols E) = Some (Col []) /\ (qks D <> None -> get_col "Q_keys" (cols E) = Some (Col [])) /\
    uerr E = NoErr /\ header E = None.
Proof.
  intros name ow D a f build F W. assert (S := save_ok name ow D f F W). unfold save_data_h5. rewrite S. eexists. eexists. split; [reflexivity|]. split.
  - intros n X. unfold store. destruct (String.eqb_spec n (name ++ ".h5")); [contradiction|reflexivity].
  - split; [apply (load_saved build D f name ow F W), S|]. assert (N := loaded_names D W). unfold load_group5. cbn [cols uerr header g_dks g_qks g_cols].
    split; [apply by_name_ordered, N|]. rewrite !get_by_name by exact N. split; [|split; [|split; [|split; reflexivity]]].
    + intros k X Y. rewrite get_by_name by exact N. cbn [get_col]. destruct (String.eqb_spec "data_keys" k); [congruence|]. destruct (qks D); [|reflexivity]. cbn [List.app get_col]. destruct (String.eqb_spec "Q_keys" k); [|reflexivity]. destruct Y; congruence.
    + reflexivity.
    + intros Q. cbn [get_col]. change (String.eqb "data_keys" "Q_keys") with false. cbn [List.app]. destruct (qks D); [reflexivity|congruence].
Qed.
Print Assumptions C100_roundtrip.

(** ** What the columns mean is lost *)
Lemma look_bytes k d : look k (bytes_dict d) = option_map bytes_text (look k d).
Proof. induction d as [|[k' v] d IH]; cbn; [reflexivity|]. destruct (String.eqb k' k); [reflexivity|exact IH]. Qed.
(** Detector, monitor and time of a loaded dataset are a KeyError, and so are h, k, l, e and the temperature, unless Q_keys were not to be built: then they are
    the columns of these names.  (Columns whose names look like Python's bytes are left out.) *)
Theorem C100_meaning_lost : forall name ow D a f build f' E, free name ow f -> writable D -> (forall k, In k (map fst (cols D)) -> prefix "b'" k = false) ->
  save_data_h5 name ow false D a f = (f', Ok tt) -> load_data_h5 build false (name ++ ".h5") f' = Ok (E, None) ->
  (forall k, role E k = Err KeyError) /\
  (build = true -> qks D <> None -> forall k, coordinate E k = Err KeyError) /\
  (build = false -> forall k, In k ["h"; "k"; "l"; "e"; "temp"] -> coordinate E k = match get_col k (cols D) with Some c => Ok c | None => Err KeyError end).
Proof.
  intros name ow D a f build f' E F W P S L. unfold save_data_h5 in S. rewrite (save_ok name ow D f F W) in S.
  rewrite (load_saved build D f name ow F W f') in L by (rewrite save_ok by assumption; exact S). injection L as <-. assert (N := loaded_names D W).
  assert (G : forall v, get_col (bytes_text v) (by_name (("data_keys", Col []) :: List.app (match qks D with Some _ => [("Q_keys", Col [])] | None => [] end) (contents D))) = None).
  { intros v. rewrite get_by_name by exact N. apply get_none. cbn [map fst]. intros [X|X]; [discriminate|]. rewrite map_app in X. apply in_app_or in X. destruct X as [X|X].
    - destruct (qks D); [|destruct X]. destruct X as [X|[]]. discriminate.
    - unfold contents in X. rewrite map_app in X. apply in_app_or in X. destruct X as [X|X]; [apply P in X; unfold bytes_text in X; cbn in X; destruct (v ++ "'"); discriminate X|]. destruct (uerr D); cbn in X; intuition discriminate. }
  assert (H : forall d k, column_of (load_group5 build (mkG (dks D) (qks D) (contents D))) (look k (bytes_dict d)) = Err KeyError).
  { intros d k. rewrite look_bytes. unfold column_of, load_group5. cbn [cols g_dks g_qks g_cols]. destruct (look k d) as [v|]; cbn [option_map]; [|reflexivity]. rewrite G. reflexivity. }
  split; [intros k; apply H|]. split.
  - intros -> Q k. unfold coordinate. cbn [qks load_group5 g_qks]. destruct (qks D) as [q|]; [|congruence]. apply H.
  - intros -> k K. unfold coordinate. cbn [qks load_group5 g_qks].
    assert (X : look k default_qks = Some k) by (cbn in K; repeat (destruct K as [<-|K]; [reflexivity|]); destruct K). rewrite X. unfold column_of, load_group5. cbn [cols g_dks g_qks g_cols].
    rewrite get_by_name by exact N. cbn [get_col]. assert (Y : k <> "data_keys" /\ k <> "Q_keys" /\ k <> "error") by (cbn in K; repeat (destruct K as [<-|K]; [repeat split; discriminate|]); destruct K). destruct Y as (Y1 & Y2 & Y3).
    destruct (String.eqb_spec "data_keys" k); [congruence|].
    assert (Z : get_col k (List.app (match qks D with Some _ => [("Q_keys", Col [])] | None => [] end) (contents D)) = get_col k (contents D)) by (destruct (qks D); [cbn [List.app get_col]; destruct (String.eqb_spec "Q_keys" k); [congruence|reflexivity]|reflexivity]).
    rewrite Z. assert (V : get_col k (contents D) = get_col k (cols D)); [|rewrite V; reflexivity].
    unfold contents. clear - Y3. induction (cols D) as [|[x y] l IH]; cbn [List.app get_col]; [|destruct (String.eqb x k); [reflexivity|exact IH]]. destruct (uerr D); try reflexivity. cbn [get_col]. destruct (String.eqb_spec "error" k); [congruence|reflexivity].
Qed.
Print Assumptions C100_meaning_lost.

(** ** A second time *)
Lemma make_all_prefix used pre k c post : In k used -> c <> PyNone -> (forall x, In x used -> ~ In x (map fst pre)) -> NoDup (map fst pre) -> (forall x y, In (x, y) pre -> y <> PyNone) ->
  make_all used (List.app pre ((k, c) :: post)) = (pre, Err ValueError).
Proof.
  revert used. induction pre as [|[x y] pre IH]; intros used I C U N P; cbn [List.app make_all].
  - assert (M : mem k used = true) by (apply mem_in; exact I). rewrite M. destruct c; congruence.
  - inversion N as [|? ? N1 N2]; subst. assert (M : mem x used = false) by (apply mem_notin; intros X; apply (U x X); left; reflexivity). rewrite M.
    assert (IH' := IH (x :: used)). cbn [map fst] in U. rewrite IH'; auto.
    + destruct y; try reflexivity. exfalso. apply (P x PyNone); [left; reflexivity|reflexivity].
    + right. exact I.
    + intros z [<-|Z] X; [contradiction|]. apply (U z Z). right. exact X.
    + intros z w H. apply (P z w). right. exact H.
Qed.
Lemma split_sorted k c l : ordered l -> In (k, c) l -> exists pre post, l = List.app pre ((k, c) :: post) /\ forall x y, In (x, y) pre <-> In (x, y) l /\ before x k.
Proof.
  unfold ordered. induction l as [|[x y] l IH]; intros S I; [destruct I|]. cbn [map fst] in S. inversion S as [|? ? S1 S2]; subst. rewrite Forall_forall in S2. destruct I as [E|I].
  - injection E as -> ->. exists [], l. split; [reflexivity|]. intros a b. split; [intros []|]. intros [[H|H] B].
    + injection H as -> ->. exfalso. exact (before_irrefl _ B).
    + exfalso. apply (before_irrefl k). apply (before_trans k a k); [|exact B]. apply S2, in_map_iff. exists (a, b). auto.
  - destruct (IH S1 I) as (pre & post & -> & H). exists ((x, y) :: pre), post. split; [reflexivity|]. intros a b. cbn [In]. rewrite H. split.
    + intros [X|[X Y]]; [|auto]. split; [auto|]. injection X as -> ->. apply S2, in_map_iff. exists (k, c). auto.
    + intros [[X|X] Y]; [left; exact X|right; auto].
Qed.
(** A dataset that was loaded cannot be saved again: the two columns without entries have the names of the two groups.  The file meant to be overwritten is
    emptied all the same, and keeps only the columns whose names come before that of the first of the two. *)
Theorem C100_again : forall name ow D a f build f' E name2 ow2 si a2 g, free name ow f -> writable D -> 
  save_data_h5 name ow false D a f = (f', Ok tt) -> load_data_h5 build false (name ++ ".h5") f' = Ok (E, None) -> free name2 ow2 g ->
  exists g' G h, save_data_h5 name2 ow2 si E a2 g = (g', Err ValueError) /\ g' (name2 ++ ".h5") = Some h /\ f_data h = Some G /\
    (forall k c, In (k, c) (g_cols G) <-> In (k, c) (contents D) /\ before k (match qks D with Some _ => "Q_keys" | None => if mem "Q_keys" (map fst (cols D)) then "Q_keys" else "data_keys" end)) /\
    (ow2 = true -> f_instr h = None).
Proof.
  intros name ow D a f build f' E name2 ow2 si a2 g F W S L F2. unfold save_data_h5 in S. rewrite (save_ok name ow D f F W) in S.
  rewrite (load_saved build D f name ow F W f') in L by (rewrite save_ok by assumption; exact S). injection L as <-. assert (N := loaded_names D W).
  set (E := load_group5 build (mkG (dks D) (qks D) (contents D))). set (X := match qks D with Some _ => "Q_keys" | None => if mem "Q_keys" (map fst (cols D)) then "Q_keys" else "data_keys" end).
  assert (QE : exists q, qks E = Some q). { unfold E, load_group5. cbn [qks g_qks g_cols]. destruct build; [|eexists; reflexivity]. destruct (qks D); [eexists; reflexivity|]. destruct (mem "Q_keys" (map fst (contents D))); eexists; reflexivity. }
  set (l := ("data_keys", Col []) :: List.app (match qks D with Some _ => [("Q_keys", Col [])] | None => [] end) (contents D)) in *.
  assert (CE : cols E = by_name l) by reflexivity. assert (SO := by_name_ordered l N). assert (PM := by_name_perm l).
  assert (B : before "Q_keys" "data_keys") by reflexivity.
  assert (LP : forall k c, In (k, c) l -> c <> PyNone).
  { intros k c [H|H]; [injection H as <- <-; discriminate|]. apply in_app_or in H. destruct H as [H|H]; [destruct (qks D); [destruct H as [H|[]]; injection H as <- <-; discriminate|destruct H]|].
    unfold contents in H. apply in_app_or in H. destruct W as (_ & _ & _ & _ & W5). destruct H as [H|H]; [exact (W5 k c H)|]. destruct (uerr D); cbn in H; intuition congruence. }
  assert (XI : exists c, In (X, c) l /\ (X = "Q_keys" \/ X = "data_keys") /\ forall k d, In (k, d) l -> before k X -> k <> "Q_keys" /\ k <> "data_keys").
  { assert (T : forall k : string, before k "Q_keys" -> k <> "Q_keys" /\ k <> "data_keys") by (intros k H; split; intros ->; [exact (before_irrefl _ H)|discriminate]).
    unfold X, l. destruct (qks D) as [q|] eqn:Q.
    - exists (Col []). split; [right; left; reflexivity|]. split; [left; reflexivity|]. intros k d _. apply T.
    - destruct (mem "Q_keys" (map fst (cols D))) eqn:M.
      + apply mem_in, in_map_iff in M. destruct M as ([k c] & E1 & M). cbn in E1. subst k. exists c. split; [right; unfold contents; cbn [List.app]; apply in_or_app; left; exact M|]. split; [left; reflexivity|]. intros k d _. apply T.
      + apply mem_notin in M. exists (Col []). split; [left; reflexivity|]. split; [right; reflexivity|]. intros k d H Bk. split; intros ->.
        * destruct H as [H|H]; [discriminate|]. cbn [List.app] in H. unfold contents in H. apply in_app_or in H. destruct H as [H|H]; [apply M, in_map_iff; exists ("Q_keys", d); auto|]. destruct (uerr D); cbn in H; intuition congruence.
        * exact (before_irrefl _ Bk). }
  destruct XI as (c & XI & XC & XB). destruct (split_sorted X c (by_name l) SO) as (pre & post & SP & PI); [eapply Permutation_in; [symmetry; exact PM|exact XI]|].
  assert (ME : make_all (taken E) (List.app (cols E) (own_errors E)) = (pre, Err ValueError)).
  { assert (OE : own_errors E = []) by reflexivity. rewrite OE, app_nil_r, CE, SP. unfold taken. destruct QE as [q ->]. apply make_all_prefix.
    - destruct XC as [-> | ->]; cbn; auto.
    - apply (LP X c XI).
    - intros x H Y. apply in_map_iff in Y. destruct Y as ([k d] & <- & Y). cbn [fst] in H. apply PI in Y. destruct Y as [Y1 Y2]. assert (Y3 : In (k, d) l) by (eapply Permutation_in; [exact PM|exact Y1]). destruct (XB k d Y3 Y2). cbn in H. intuition congruence.
    - assert (NB : NoDup (map fst (by_name l))) by (eapply Permutation_NoDup; [apply Permutation_map; symmetry; exact PM|exact N]). rewrite SP, map_app in NB. clear - NB. induction (map fst pre) as [|z r IH]; [constructor|]. cbn in NB. inversion NB as [|? ? N1 N2]; subst. constructor; [intros Z; apply N1, in_or_app; auto|auto].
    - intros x y H. apply PI in H. apply (LP x y). eapply Permutation_in; [exact PM|apply H]. }
  unfold save_data_h5. rewrite save_free by exact F2. rewrite ME. cbn [fst snd]. do 3 eexists. split; [reflexivity|]. unfold store at 1. rewrite String.eqb_refl. split; [reflexivity|]. split; [reflexivity|]. split.
  - cbn [g_cols]. intros k d. rewrite PI. fold X. split.
    + intros [H Bk]. split; [|exact Bk]. assert (H' : In (k, d) l) by (eapply Permutation_in; [exact PM|exact H]). destruct (XB k d H' Bk) as [K1 K2]. destruct H' as [H'|H']; [congruence|]. apply in_app_or in H'. destruct H' as [H'|H']; [destruct (qks D); [destruct H' as [H'|[]]; congruence|destruct H']|exact H'].
    + intros [H Bk]. split; [|exact Bk]. eapply Permutation_in; [symmetry; exact PM|]. right. apply in_or_app. right. exact H.
  - intros ->. cbn [f_instr]. unfold target. destruct (g (name2 ++ ".h5")); reflexivity.
Qed.
Print Assumptions C100_again.
(** Nor can it be saved as text. *)
Theorem C100_no_text : forall name ow D a f build f' E time name2 ow2 g k c, free name ow f -> writable D ->
  save_data_h5 name ow false D a f = (f', Ok tt) -> load_data_h5 build false (name ++ ".h5") f' = Ok (E, None) -> In (k, c) (contents D) -> c <> Col [] ->
  save_ascii time name2 ow2 E g = (E, g, Err ValueError).
Proof.
  intros name ow D a f build f' E time name2 ow2 g k c F W S L I C. unfold save_data_h5 in S. rewrite (save_ok name ow D f F W) in S.
  rewrite (load_saved build D f name ow F W f') in L by (rewrite save_ok by assumption; exact S). injection L as <-.
  unfold save_ascii. set (E := load_group5 build _). assert (U : uerr E = NoErr) by reflexivity. rewrite U.
  assert (V : vstack (map snd (cols E)) = Err ValueError).
  { unfold vstack. destruct (map cell_list (map snd (cols E))) as [|x r] eqn:M; [reflexivity|].
    destruct (forallb _ r) eqn:FA; [|reflexivity]. exfalso. rewrite forallb_forall in FA.
    assert (A : forall y, In y (x :: r) -> List.length y = List.length x) by (intros y [<-|H]; [reflexivity|apply Nat.eqb_eq, FA, H]). rewrite <- M in A.
    set (l := ("data_keys", Col []) :: List.app (match qks D with Some _ => [("Q_keys", Col [])] | None => [] end) (contents D)). assert (PM := by_name_perm l).
    assert (A1 : List.length (cell_list (Col [])) = List.length x).
    { apply A. apply in_map. apply in_map_iff. exists ("data_keys", Col []). split; [reflexivity|]. eapply Permutation_in; [symmetry; exact PM|]. left. reflexivity. }
    assert (A2 : List.length (cell_list c) = List.length x).
    { apply A. apply in_map. apply in_map_iff. exists (k, c). split; [reflexivity|]. eapply Permutation_in; [symmetry; exact PM|]. right. apply in_or_app. right. exact I. }
    rewrite <- A1 in A2. destruct c as [[|q t]|q|]; cbn in A2; try discriminate. apply C. reflexivity. }
  rewrite V. reflexivity.
Qed.
Print Assumptions C100_no_text.

(** ** The instrument *)
(** A triple-axis instrument saved with the data is the one that an hdf5 file of its own would give; every other instrument, or none, is passed over in silence,
    and the file cannot be loaded together with an instrument. *)
Theorem C100_instrument : forall name ow D a f build, free name ow f -> writable D -> (ow = true \/ f (name ++ ".h5") = None) ->
  (forall J, a = TripleAxis J -> whole J ->
    exists f' E, save_data_h5 name ow true D a f = (f', Ok tt) /\ load_data_h5 build false (name ++ ".h5") f' = Ok (E, None) /\
    load_data_h5 build true (name ++ ".h5") f' = match load_h5 (name ++ ".h5") (fst (save_h5 J name true (fun _ => None))) with Ok K => Ok (E, Some K) | Err e => Err e end) /\
  ((forall J, a <> TripleAxis J) -> save_data_h5 name ow true D a f = save_data_h5 name ow false D a f /\
    load_data_h5 build true (name ++ ".h5") (fst (save_data_h5 name ow true D a f)) = Err KeyError).
Proof.
  intros name ow D a f build F W O. assert (T : target name ow f = mkF None [] None) by (unfold target; destruct O as [-> | ->]; [destruct (f (name ++ ".h5")); reflexivity|reflexivity]).
  assert (S := save_ok name ow D f F W). rewrite T in S. cbn [f_rest f_instr] in S. split.
  - intros J -> WJ. unfold save_data_h5. rewrite S. set (n := name ++ ".h5") in *. set (f1 := store f n _).
    assert (E : f1 n = Some (mkF (Some (mkG (dks D) (qks D) (contents D))) [] None)) by (unfold f1, store; rewrite String.eqb_refl; reflexivity).
    assert (A : save_attached (TripleAxis J) name f1 = (store f1 n (mkF (Some (mkG (dks D) (qks D) (contents D))) [] (Some (written J saved))), Ok tt)).
    { unfold save_attached, save_h5. cbv zeta. fold n. rewrite E. cbn [option_map as_instr f_data f_rest f_instr instrument rest]. rewrite whole_fill by exact WJ.
      unfold H5InstrModel.write at 1. rewrite String.eqb_refl. reflexivity. }
    rewrite A. eexists. exists (load_group5 build (mkG (dks D) (qks D) (contents D))). split; [reflexivity|]. set (f2 := store f1 n _).
    assert (E2 : f2 n = Some (mkF (Some (mkG (dks D) (qks D) (contents D))) [] (Some (written J saved)))) by (unfold f2, store; rewrite String.eqb_refl; reflexivity).
    unfold load_data_h5. rewrite E2. cbn [f_data]. split; [reflexivity|]. unfold load_h5. rewrite E2. cbn [option_map as_instr f_instr instrument].
    unfold save_h5. cbv zeta. fold n. cbn [instrument rest]. rewrite whole_fill by exact WJ. cbn [fst]. unfold H5InstrModel.write. rewrite String.eqb_refl. cbn [instrument]. destruct (load_groups default (written J saved)); reflexivity.
  - intros N. assert (X : save_data_h5 name ow true D a f = save_data_h5 name ow false D a f) by (unfold save_data_h5; rewrite S; destruct a; try reflexivity; exfalso; eapply N; reflexivity). split; [exact X|].
    rewrite X. unfold save_data_h5. rewrite S. cbn [fst]. unfold load_data_h5, load_h5, store. rewrite String.eqb_refl. reflexivity.
Qed.
Print Assumptions C100_instrument.
(** The instrument in a file. *)
Definition f_instr_of (f : h5s) (n : string) : option groups := match f n with Some h => f_instr h | None => None end.
(** Into a file that has an instrument but no data, without overwriting: the data are saved, the old instrument stays, and saving the new one is refused. *)
Theorem C100_old_instrument : forall name D J f h gs, f (name ++ ".h5") = Some h -> f_data h = None -> f_instr h = Some gs -> writable D ->
  exists f', save_data_h5 name false true D (TripleAxis J) f = (f', Err ValueError) /\ f_instr_of f' (name ++ ".h5") = Some gs /\
  forall build, load_data_h5 build false (name ++ ".h5") f' = load_data_h5 build false (name ++ ".h5") (fst (save_data_h5 name true false D NoInstrument f)).
Proof.
  intros name D J f h gs H HD HI W. assert (F : free name false f) by (right; intros h' E; rewrite H in E; injection E as <-; exact HD).
  assert (S := save_ok name false D f F W). unfold target in S. rewrite H, HI in S. 
  assert (S2 := save_ok name true D f (or_introl eq_refl) W).
  unfold save_data_h5. rewrite S, S2. set (n := name ++ ".h5") in *. set (f1 := store f n _).
  assert (E : f1 n = Some (mkF (Some (mkG (dks D) (qks D) (contents D))) (f_rest h) (Some gs))) by (unfold f1, store; rewrite String.eqb_refl; reflexivity).
  assert (A : save_attached (TripleAxis J) name f1 = (store f1 n (mkF (Some (mkG (dks D) (qks D) (contents D))) (f_rest h) (Some gs)), Err ValueError)).
  { unfold save_attached, save_h5. cbv zeta. fold n. rewrite E. cbn [option_map as_instr f_data f_rest f_instr instrument rest]. rewrite E. reflexivity. }
  rewrite A. eexists. split; [reflexivity|]. split.
  - unfold f_instr_of, store. rewrite String.eqb_refl. reflexivity.
  - intros build. unfold load_data_h5. cbn [fst]. unfold store. rewrite !String.eqb_refl. reflexivity.
Qed.
Print Assumptions C100_old_instrument.

(** ** Example *)
Definition peak : dset := mkDset [("Q", Col [1%Q; 2%Q]); ("e", Col [0%Q; 0%Q]); ("counts", Col [10%Q; 20%Q]); ("monitor", Col [5%Q; 5%Q])]
  [("detector", "counts"); ("monitor", "monitor"); ("time", "time")] (Some [("e", "e")]) None (ErrVal [1%Q; 2%Q]).
Lemma peak_writable : writable peak.
Proof.
  apply make_writable. reflexivity.
Qed.
Example C100_peak : writable peak /\ free "run" false (fun _ => None) /\ (forall k, In k (map fst (cols peak)) -> prefix "b'" k = false) /\
  role peak "detector" = Ok (Col [10%Q; 20%Q]) /\
  exists f' E, save_data_h5 "run" false false peak NoInstrument (fun _ => None) = (f', Ok tt) /\ load_data_h5 true false "run.h5" f' = Ok (E, None) /\
    map fst (cols E) = ["Q"; "Q_keys"; "counts"; "data_keys"; "e"; "error"; "monitor"] /\ get_col "error" (cols E) = Some (Col [1%Q; 2%Q]) /\ look "detector" (dks E) = Some "b'counts'" /\ role E "detector" = Err KeyError.
Proof.
  split; [exact peak_writable|]. split; [right; discriminate|]. split; [cbn; intros k H; repeat (destruct H as [<-|H]; [reflexivity|]); destruct H|]. split; [reflexivity|].
  do 2 eexists. split; [reflexivity|]. split; [reflexivity|]. repeat split.
Qed.
Example C100_peak_again : exists f' E g' G, save_data_h5 "run" false false peak NoInstrument (fun _ => None) = (f', Ok tt) /\ load_data_h5 true false "run.h5" f' = Ok (E, None) /\
  save_data_h5 "run" true false E NoInstrument f' = (g', Err ValueError) /\ g' "run.h5" = Some (mkF (Some G) [] None) /\ map fst (g_cols G) = ["Q"].
Proof. do 4 eexists. split; [reflexivity|]. split; [reflexivity|]. split; [reflexivity|]. split; reflexivity. Qed.
Example C100_not_writable : ~ writable (mkDset [("error", Col [1%Q])] [] None None (ErrVal [1%Q])) /\ ~ free "run" false (fun _ => Some (mkF (Some (mkG [] None [])) [] None)).
Proof.
  split; [intros W; apply make_writable in W; discriminate|]. intros [H|H]; [discriminate|]. specialize (H _ eq_refl). discriminate.
Qed.
Example C100_instrument_example : exists f h gs, f ("run" ++ ".h5") = Some h /\ f_data h = None /\ f_instr h = Some gs /\ whole default /\
  save_data_h5 "run" false true peak (TripleAxis default) (fun _ => None) = (fst (save_data_h5 "run" false true peak (TripleAxis default) (fun _ => None)), Ok tt).
Proof.
  exists (fun _ => Some (mkF None [] (Some []))). do 2 eexists. split; [reflexivity|]. split; [reflexivity|]. split; [reflexivity|]. split; [|reflexivity].
  intros g k K. assert (C : forallb (fun p => match val default (fst p) (snd p) with Some w => if value_eq_dec w none then false else true | None => true end) saved_names = true) by (vm_compute; reflexivity). rewrite forallb_forall in C. specialize (C _ K). cbn [fst snd] in C. intros E. rewrite E in C. discriminate.
Qed.
(** A file that is not there is an OSError, one without data a KeyError. *)
Theorem C100_missing : forall build li name f, (f name = None -> load_data_h5 build li name f = Err OSError) /\
  (forall h, f name = Some h -> f_data h = None -> load_data_h5 build li name f = Err KeyError).
Proof. intros build li name f. unfold load_data_h5. split; [intros ->; reflexivity|intros h -> ->; reflexivity]. Qed.
Print Assumptions C100_missing.

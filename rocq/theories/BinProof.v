From Coq Require Import String List QArith Qabs Qround Bool Arith Lia Lqa ZArith.
From Verif Require Import Base DataModel DataSpec DataProof CombineProof OpsModel OpsSpec OpsProof BinModel BinSpec.
Import ListNotations.
Local Open Scope string_scope.

(** ** Chunking *)
Lemma firstn_step {A} (l : list A) a b : (a <= b)%nat -> (firstn a l ++ firstn (b - a) (skipn a l))%list = firstn b l.
Proof.
  revert a b; induction l; intros [|a'] [|b'] H; simpl; try lia; auto.
  - now rewrite firstn_nil.
  - f_equal. apply IHl. lia.
Qed.
Lemma div_mono P m N : (P <> 0)%nat -> (m * N / P <= S m * N / P)%nat.
Proof. intros. apply Nat.div_le_mono; auto. lia. Qed.
Lemma chunks_prefix {A} P (l : list A) m : (P <> 0)%nat ->
  List.concat (map (chunk P l) (seq 0 m)) = firstn (m * length l / P) l.
Proof.
  intros HP. induction m; [simpl; now rewrite Nat.div_0_l by auto|].
  rewrite seq_S, map_app, concat_app, IHm. cbn [map List.concat]. rewrite app_nil_r. unfold chunk.
  rewrite Nat.add_0_l. apply firstn_step. now apply div_mono.
Qed.
Lemma chunks_all {A} P (l : list A) : (P <> 0)%nat -> List.concat (map (chunk P l) (seq 0 P)) = l.
Proof.
  intros HP. rewrite chunks_prefix by auto. rewrite Nat.mul_comm, Nat.div_mul by auto. apply firstn_all.
Qed.
Lemma chunks_map {A B} (f : A -> B) P l : (P <> 0)%nat ->
  List.concat (map (fun n => map f (chunk P l n)) (seq 0 P)) = map f l.
Proof.
  intros HP. rewrite <- (map_map (chunk P l) (map f)), <- concat_map. now rewrite chunks_all.
Qed.

Lemma bin_nprocs P1 P2 d qk to_bin hk : (P1 <> 0)%nat -> (P2 <> 0)%nat ->
  bin_data P1 d qk to_bin hk = bin_data P2 d qk to_bin hk.
Proof.
  intros H1 H2. unfold bin_data. destruct (map_res _ _); auto. destruct (forallb _ _); auto.
  destruct (bin_keys qk to_bin hk) eqn:E; auto. destruct (error_sq d) as [[es d']|]; auto.
  cbv zeta. now rewrite !chunks_map.
Qed.

(** ** Mesh *)
Lemma prod_axes_spec axes c : In c (prod_axes axes) <-> Forall2 (fun a x => In x a) axes c.
Proof.
  revert c; induction axes; intros c; simpl.
  - split; [intros [<-|[]]; constructor|]. intros H; inversion H; auto.
  - rewrite in_flat_map. split.
    + intros (x & Hx & H). apply in_map_iff in H. destruct H as (c' & <- & H). constructor; auto. now apply IHaxes.
    + intros H. inversion H; subst. exists y. split; auto. apply in_map. now apply IHaxes.
Qed.
Lemma mesh_spec axes c : In c (mesh axes) <-> Forall2 (fun a x => In x a) axes c.
Proof.
  unfold mesh. destruct axes as [|a [|b rest]]; try apply prod_axes_spec.
  rewrite in_map_iff. split.
  - intros (c' & <- & H). apply prod_axes_spec in H. inversion H; subst. inversion H4; subst.
    simpl. repeat constructor; auto.
  - intros H. inversion H; subst. inversion H4; subst. exists (y0 :: y :: l'0). split; auto.
    apply prod_axes_spec. repeat constructor; auto.
Qed.

Lemma axis_centre r c : In c (fst (axis r)) -> exists i, is_centre r i c.
Proof.
  destruct r as [[lo hi] n]. unfold axis, is_centre, width. destruct (Nat.eqb_spec n 1).
  - simpl. intros [<-|[]]. exists 0%nat. split; [lia|reflexivity].
  - cbn [fst]. rewrite in_map_iff. intros (i & <- & H). apply in_seq in H. exists i. split; [lia|].
    unfold nq. reflexivity.
Qed.
Lemma centre_axis r i c : is_centre r i c -> exists c', In c' (fst (axis r)) /\ c' == c.
Proof.
  destruct r as [[lo hi] n]. unfold axis, is_centre, width. destruct (Nat.eqb_spec n 1).
  - simpl. intros [_ H]. exists ((lo + hi) / 2). split; auto. now symmetry.
  - intros [Hi H]. eexists. split; [cbn [fst]; apply in_map_iff; exists i; split; [reflexivity|]; apply in_seq; lia|].
    rewrite H. reflexivity.
Qed.
Lemma axis_width r : snd (axis r) = width r.
Proof. destruct r as [[lo hi] n]. unfold axis, width. now destruct (Nat.eqb n 1). Qed.

(** ** Inside *)
Lemma inside1 s c x : Qle_bool x (c + s / 2) && Qle_bool (c - s / 2) x = true <-> Qabs (x - c) <= s / 2.
Proof.
  rewrite andb_true_iff, !Qle_bool_iff, Qabs_Qle_condition. split; intros []; split; lra.
Qed.
Lemma inside_spec ranges : forall c v, length c = length ranges -> length v = length ranges ->
  (inside (map width ranges) c v = true <-> within_cell ranges c v).
Proof.
  unfold within_cell. induction ranges as [|r ranges IH]; intros [|x c] [|y v] Hc Hv; simpl in Hc, Hv; try lia.
  - simpl. split; auto. intros _. repeat split; auto. intros [|i]; simpl; discriminate.
  - cbn [map inside]. rewrite andb_true_iff, inside1, (IH c v) by lia. split.
    + intros (H & _ & _ & F). repeat split; simpl; auto. intros [|i] r' x' y'; simpl.
      * intros E1 E2 E3; inversion E1; inversion E2; inversion E3; subst; auto.
      * apply F.
    + intros (_ & _ & F). split; [exact (F 0%nat r x y eq_refl eq_refl eq_refl)|]. repeat split; try lia.
      intros i. exact (F (S i)).
Qed.

Lemma at_keys_place ks bk r : Forall (fun k => In k ks) bk -> length r = length ks -> at_keys ks bk r (place ks bk r).
Proof.
  intros F L. unfold place, at_keys. induction F; simpl; constructor; auto.
  unfold row_get. destruct (lookup_some ks r x L H) as [v ->]. auto.
Qed.
Lemma at_keys_unique ks bk r v v' : at_keys ks bk r v -> at_keys ks bk r v' -> v = v'.
Proof.
  unfold at_keys. intros H; revert v'; induction H; intros v' H'; inversion H'; subst; auto.
  f_equal; [congruence|auto].
Qed.

Lemma somes_in {A B} (f : A -> option B) l : somes (map f l) = map snd (somes (map (fun a => option_map (pair a) (f a)) l)).
Proof. induction l; simpl; auto. destruct (f a); simpl; congruence. Qed.

Lemma filter_combine {A B} (p : A -> bool) (l : list A) (e : list B) : length l = length e ->
  map fst (filter (fun re => p (fst re)) (List.combine l e)) = filter p l.
Proof.
  revert e; induction l; intros [|b e]; simpl; intros; try lia; auto.
  destruct (p a); simpl; rewrite IHl by lia; auto.
Qed.

Lemma map_res_inv {A B} (f : A -> res B) l ys : map_res f l = Ok ys -> Forall2 (fun a b => f a = Ok b) l ys.
Proof.
  revert ys; induction l; simpl; intros ys E; [inversion E; constructor|].
  destruct (f a) eqn:Ea; [|discriminate]. simpl in E. destruct (map_res f l) eqn:El; [|discriminate].
  simpl in E. inversion E; subst. constructor; auto.
Qed.

Lemma fold_qmin l : forall x, is_smallest (fold_left qmin l x) (x :: l).
Proof.
  induction l as [|y l IH]; intros x; simpl.
  - split; [now left|]. constructor; auto. apply Qle_refl.
  - destruct (IH (qmin x y)) as [I F]. split.
    + destruct I as [I|I]; [|right; right; auto]. rewrite <- I. unfold qmin. destruct (Qle_bool x y); simpl; auto.
    + inversion F; subst. assert (qmin x y <= x /\ qmin x y <= y).
      { unfold qmin. destruct (Qle_bool x y) eqn:E; split; try apply Qle_refl.
        - now apply Qle_bool_iff.
        - destruct (Qlt_le_dec x y); [|auto]. apply Qlt_le_weak, Qle_bool_iff in q. congruence. }
      destruct H. constructor; [eapply Qle_trans; eauto|]. constructor; auto. eapply Qle_trans; eauto.
Qed.
Lemma colmin_smallest l m : colmin l = Ok m -> is_smallest m l.
Proof. destruct l; simpl; [discriminate|]. intros E; inversion E. apply fold_qmin. Qed.

Lemma req_get_in to_bin k r : req_get to_bin k = Some r -> In (k, r) to_bin.
Proof.
  induction to_bin as [|[k' r'] l IH]; simpl; [discriminate|].
  destruct (String.eqb_spec k' k); [intros E; inversion E; subst; auto|auto].
Qed.
Lemma req_get_none to_bin k : req_get to_bin k = None -> ~ In k (map fst to_bin).
Proof.
  induction to_bin as [|[k' r'] l IH]; simpl; [tauto|].
  destruct (String.eqb_spec k' k); [discriminate|]. intros H [E|E]; auto. now apply IH.
Qed.
Lemma bin_arg_range tb qk to_bin k r : bin_arg tb qk to_bin k = Ok r -> bin_range tb to_bin k r.
Proof.
  unfold bin_arg, bin_range. destruct (req_get to_bin k) as [r'|] eqn:E.
  - intros H; inversion H; subst. left. now apply req_get_in.
  - destruct (mem k (map snd qk)); [|discriminate]. unfold getcol. destruct (col tb k) as [c|]; [|discriminate].
    destruct (colmin c) as [a|] eqn:E1; [|discriminate]. destruct (nanmax c) as [b|] eqn:E2; [|discriminate].
    intros H; inversion H; subst. right. split; [now apply req_get_none|]. exists a, b, c.
    split; auto. split; auto. split; [apply colmin_smallest; auto | apply nanmax_largest; auto].
Qed.

Lemma index_of_nth bk : NoDup bk -> forall i k, nth_error bk i = Some k -> index_of k bk = i.
Proof.
  induction 1 as [|x l Hx N IH]; intros [|i] k; simpl; try discriminate.
  - intros E; inversion E; subst. now rewrite String.eqb_refl.
  - intros E. destruct (String.eqb_spec x k).
    + subst. apply nth_error_In in E. tauto.
    + f_equal; auto.
Qed.

Lemma lookup_map ks (f : key -> Q) k : In k ks -> lookup ks (map f ks) k = Some (f k).
Proof.
  induction ks; simpl; [tauto|]. intros H. destruct (String.eqb_spec a k); [subst; auto|].
  destruct H; [tauto|auto].
Qed.

Lemma nq_pos n : (n <> 0)%nat -> 0 < nq n.
Proof. intros. unfold nq. change 0 with (inject_Z 0). rewrite <- Zlt_Qlt. lia. Qed.

Lemma mean_sum l : l <> [] -> mean l * nq (length l) == Qsum l.
Proof.
  intros H. unfold mean, Qsum. assert (0 < nq (length l)) by (apply nq_pos; destruct l; simpl; [tauto|lia]).
  field. lra.
Qed.

Lemma bin_cell_row ks bk steps l c r' e : NoDup bk ->
  Forall (fun re => length (fst re) = length ks) l ->
  bin_cell ks bk steps l c = Some (r', e) ->
  map fst (in_cell ks bk steps c l) <> [] /\ cell_row ks bk c (map fst (in_cell ks bk steps c l)) r'.
Proof.
  intros N F E. unfold bin_cell in E.
  assert (Fm : Forall (fun re => length (fst re) = length ks) (in_cell ks bk steps c l)).
  { unfold in_cell. rewrite Forall_forall in *. intros x Hx. apply filter_In in Hx. apply F. tauto. }
  destruct (in_cell ks bk steps c l) as [|m0 m] eqn:Em; [discriminate|]. inversion E; subst r' e; clear E.
  split; [discriminate|]. split; [now rewrite map_length|]. split.
  - intros i k x Hi Hk Hx. rewrite lookup_map by auto.
    assert (Hm : mem k bk = true) by (apply mem_In; eapply nth_error_In; eauto). rewrite Hm.
    rewrite (index_of_nth bk N i k Hi). f_equal. now apply nth_error_nth.
  - intros k Hk Hn. rewrite lookup_map by auto.
    assert (Hm : mem k bk = false) by (destruct (mem k bk) eqn:Q; auto; apply mem_In in Q; tauto). rewrite Hm.
    exists (mean (map (fun re => row_get ks (fst re) k) (m0 :: m))), (map (fun re => row_get ks (fst re) k) (m0 :: m)).
    split; auto. split.
    + clear - Fm Hk. induction Fm; simpl; constructor; auto.
      unfold row_get. destruct (lookup_some ks (fst x) k H Hk) as [v ->]. auto.
    + replace (length (map fst (m0 :: m))) with (length (map (fun re => row_get ks (fst re) k) (m0 :: m)))
        by (now rewrite !map_length). apply mean_sum. discriminate.
Qed.

Lemma within_cell_dec ranges c v : within_cell ranges c v \/ ~ within_cell ranges c v.
Proof.
  destruct (Nat.eq_dec (length c) (length ranges)); [|right; intros (_ & H & _); tauto].
  destruct (Nat.eq_dec (length v) (length ranges)); [|right; intros (H & _ & _); tauto].
  destruct (inside (map width ranges) c v) eqn:E.
  - left. now apply inside_spec.
  - right. intros H. apply inside_spec in H; auto. congruence.
Qed.

Lemma Forall2_nth_l {A B} (P : A -> B -> Prop) l l' : Forall2 P l l' -> length l = length l'.
Proof. induction 1; simpl; auto. Qed.

Lemma members_in_cell ks bk ranges c rws es :
  length c = length ranges -> length bk = length ranges -> length rws = length es ->
  Forall (fun k => In k ks) bk -> Forall (fun r => length r = length ks) rws ->
  members ks bk ranges c rws (map fst (in_cell ks bk (map width ranges) c (List.combine rws es))).
Proof.
  intros Lc Lb Le Fk Fr. exists (fun r => inside (map width ranges) c (place ks bk r)). split.
  - unfold in_cell. symmetry.
    exact (eq_sym (filter_combine (fun r => inside (map width ranges) c (place ks bk r)) rws es Le)).
  - intros r Hr. rewrite Forall_forall in Fr. specialize (Fr r Hr).
    assert (A := at_keys_place ks bk r Fk Fr).
    rewrite inside_spec by (auto; unfold place; rewrite map_length; auto). split.
    + intros H. eauto.
    + intros (v & Hv & Hw). now rewrite (at_keys_unique _ _ _ _ _ A Hv).
Qed.

Lemma within_cell_eq ranges c c' v : Forall2 Qeq c c' -> within_cell ranges c v -> within_cell ranges c' v.
Proof.
  intros E (H1 & H2 & H3). split; auto. split; [now rewrite <- (Forall2_nth_l _ _ _ E)|].
  intros i r x y Hr Hx Hy. revert i H3 Hr Hx Hy. intros i H3 Hr Hx Hy.
  assert (exists x', nth_error c i = Some x' /\ x' == x) as (x' & Hx' & Ex).
  { clear - E Hx. revert i Hx. induction E; intros [|i] Hx; simpl in *; try discriminate.
    - inversion Hx; subst; eauto.
    - eauto. }
  rewrite <- Ex. eauto.
Qed.

Lemma osum_spec l : match osum l with
  | Some s => exists qs, l = map Some qs /\ s = Qsum qs
  | None => In None l end.
Proof.
  induction l as [|[q|] l IH]; simpl; auto.
  - exists []. auto.
  - destruct (osum l); simpl; [|now right]. destruct IH as (qs & -> & ->). exists (q :: qs). auto.
Qed.
Lemma omean_mean l : l <> [] -> mean_of l (omean l).
Proof.
  intros Hl. unfold mean_of, omean. assert (H := osum_spec l). destruct (osum l); simpl; [right|left; auto].
  destruct H as (qs & -> & ->). exists qs, (Qsum qs / nq (length (map Some qs))). split; auto. split; auto.
  rewrite map_length. fold (nq (length qs)). assert (0 < nq (length qs)).
  { apply nq_pos. destruct qs; simpl in *; [tauto|lia]. }
  field. lra.
Qed.

Lemma bin_rows P d qk to_bin hk b :
  (P <> 0)%nat -> wf_table (tab d) -> NoDup (bin_keys qk to_bin hk) ->
  (match err d with Some e => length e = length (rows (tab d)) | None => True end) ->
  bin_data P d qk to_bin hk = Ok b ->
  keys (tab (b_data b)) = keys (tab d) /\
  exists ranges cells,
    Forall2 (bin_range (tab d) to_bin) (bin_keys qk to_bin hk) ranges /\
    Forall (is_cell ranges) cells /\
    Forall2 (fun c r' => exists ms, members (keys (tab d)) (bin_keys qk to_bin hk) ranges c (rows (tab d)) ms /\
                                    ms <> [] /\ cell_row (keys (tab d)) (bin_keys qk to_bin hk) c ms r')
            cells (rows (tab (b_data b))) /\
    (exists es s, error_sq d = Ok (es, s) /\
       Forall2 (fun c e => cell_mean (keys (tab d)) (bin_keys qk to_bin hk) ranges c (rows (tab d)) es e)
               cells (b_errsq b)) /\
    (forall c r v, is_cell ranges c -> In r (rows (tab d)) -> at_keys (keys (tab d)) (bin_keys qk to_bin hk) r v ->
       within_cell ranges c v -> exists c', In c' cells /\ Forall2 Qeq c' c).
Proof.
  intros HP [N F] NB HE. unfold bin_data. set (bk := bin_keys qk to_bin hk) in *.
  destruct (map_res (bin_arg (tab d) qk to_bin) bk) as [args|] eqn:Ea; [|discriminate].
  destruct (forallb (fun k => mem k (keys (tab d))) bk) eqn:Ek; [|discriminate].
  destruct bk as [|b0 bk0] eqn:Eb; [discriminate|]. rewrite <- Eb in *.
  destruct (error_sq d) as [[es d']|] eqn:Ee; [|discriminate]. cbv zeta. rewrite chunks_map by auto.
  intros H; inversion H; subst b; clear H. cbn [b_data b_errsq tab keys rows]. split; auto.
  assert (Le := error_length d es d' HE Ee).
  apply map_res_inv in Ea. assert (La := Forall2_nth_l _ _ _ Ea).
  rewrite (map_ext _ width axis_width).
  assert (Fk : Forall (fun k => In k (keys (tab d))) bk).
  { rewrite forallb_forall in Ek. rewrite Forall_forall. intros k Hk. apply mem_In. auto. }
  set (grid := mesh (map (fun a => fst (axis a)) args)).
  set (cell := bin_cell (keys (tab d)) bk (map width args) (List.combine (rows (tab d)) es)).
  assert (Gl : forall c, In c grid -> is_cell args c).
  { intros c Hc. apply mesh_spec in Hc. unfold is_cell. remember (map (fun a => fst (axis a)) args) as ax.
    clear - Hc Heqax. revert args Heqax. induction Hc; intros [|a args] E; inversion E; subst; constructor; auto.
    now apply axis_centre. }
  exists args, (map fst (somes (map (fun c => option_map (pair c) (cell c)) grid))).
  split; [|split; [|split; [|split]]].
  - clear - Ea. induction Ea; constructor; auto. eapply bin_arg_range; eauto.
  - rewrite Forall_forall. intros c Hc. apply in_map_iff in Hc. destruct Hc as ([c' o] & <- & Hc).
    apply Gl. clear - Hc. induction grid; simpl in *; [tauto|].
    destruct (cell a); simpl in Hc; [destruct Hc as [E|Hc]; [inversion E; subst; auto|]|]; auto.
  - rewrite (somes_in cell grid).
    assert (Fl : Forall (fun re => length (fst re) = length (keys (tab d))) (List.combine (rows (tab d)) es)).
    { rewrite Forall_forall in *. intros [r e] Hr. apply in_combine_l in Hr. apply F. auto. }
    clearbody grid. induction grid as [|c grid IH]; cbn [map somes]; [constructor|].
    destruct (cell c) as [[r' e]|] eqn:Ec; simpl; [|apply IH; intros; apply Gl; now right].
    constructor; [|apply IH; intros; apply Gl; now right].
    destruct (bin_cell_row _ _ _ _ _ _ _ NB Fl Ec) as [A B].
    exists (map fst (in_cell (keys (tab d)) bk (map width args) c (List.combine (rows (tab d)) es))).
    split; auto. apply members_in_cell; auto.
    assert (G := Gl c (or_introl eq_refl)). unfold is_cell in G. now rewrite (Forall2_nth_l _ _ _ G).
  - exists es, d'. split; auto. rewrite (somes_in cell grid).
    clearbody grid. induction grid as [|c grid IH]; cbn [map somes]; [constructor|].
    destruct (cell c) as [[r' e]|] eqn:Ec; simpl; [|apply IH; intros; apply Gl; now right].
    constructor; [|apply IH; intros; apply Gl; now right].
    exists (fun r => inside (map width args) c (place (keys (tab d)) bk r)). split.
    + assert (Lc : length c = length args).
      { assert (G := Gl c (or_introl eq_refl)). unfold is_cell in G. now rewrite (Forall2_nth_l _ _ _ G). }
      intros r Hr. rewrite Forall_forall in F. specialize (F r Hr).
      assert (A := at_keys_place (keys (tab d)) bk r Fk F).
      rewrite inside_spec by (auto; unfold place; rewrite map_length; auto). split; [eauto|].
      intros (v & Hv & Hw). now rewrite (at_keys_unique _ _ _ _ _ A Hv).
    + unfold cell, bin_cell in Ec. fold (in_cell (keys (tab d)) bk (map width args) c (List.combine (rows (tab d)) es)).
      destruct (in_cell _ _ _ _ _) as [|m0 m] eqn:Em; [discriminate|]. inversion Ec; subst. apply omean_mean. discriminate.
  - intros c r v Hc Hr Hv Hw.
    assert (exists c', In c' grid /\ Forall2 Qeq c' c) as (c' & Hc' & Eq).
    { unfold grid. clear - Hc. 
      assert (exists c', Forall2 (fun a x => In x a) (map (fun a => fst (axis a)) args) c' /\ Forall2 Qeq c' c) as (c' & A & B).
      { unfold is_cell in Hc. induction Hc; [exists []; split; constructor|].
        destruct IHHc as (c' & A & B). destruct H as [i Hi]. destruct (centre_axis _ _ _ Hi) as (z & Hz & Ez).
        exists (z :: c'). split; simpl; constructor; auto. }
      exists c'. split; auto. now apply mesh_spec. }
    exists c'. split; auto.
    assert (Lc' : length c' = length args). { assert (G := Gl _ Hc'). unfold is_cell in G. now rewrite (Forall2_nth_l _ _ _ G). }
    assert (M := members_in_cell (keys (tab d)) bk args c' (rows (tab d)) es Lc' La (eq_sym Le) Fk F).
    destruct M as (p & Ep & Hp).
    assert (Hin : In r (map fst (in_cell (keys (tab d)) bk (map width args) c' (List.combine (rows (tab d)) es)))).
    { rewrite Ep. apply filter_In. split; auto. apply Hp; auto. exists v. split; auto.
      eapply within_cell_eq; [|exact Hw]. clear - Eq. induction Eq; constructor; auto. now symmetry. }
    assert (exists o, cell c' = Some o) as [o Eo].
    { unfold cell, bin_cell. destruct (in_cell _ _ _ _ _); [destruct Hin|]. eauto. }
    clear - Hc' Eo. induction grid as [|a grid IH]; cbn [map somes]; [destruct Hc'|].
    destruct Hc' as [->|Hc'].
    + rewrite Eo. simpl. auto.
    + destruct (cell a); simpl; auto.
Qed.

Ltac qlra := unfold Qdiv in *; change (/ 2) with (1 # 2) in *; lra.

(** ** Coverage *)
Lemma axis_cover (lo s x : Q) m : 0 <= s -> lo - s / 2 <= x -> x <= lo + nq m * s + s / 2 ->
  exists i, (i <= m)%nat /\ Qabs (x - (lo + nq i * s)) <= s / 2.
Proof.
  intros Hs Hl. induction m; intros Hu.
  - exists 0%nat. split; auto. apply Qabs_Qle_condition. unfold nq in *. simpl in *.
    change (inject_Z 0) with 0 in *. split; qlra.
  - destruct (Qlt_le_dec (lo + nq m * s + s / 2) x).
    + exists (S m). split; auto. apply Qabs_Qle_condition.
      assert (E : nq (S m) == nq m + 1). { unfold nq. rewrite Nat2Z.inj_succ. unfold Z.succ. rewrite inject_Z_plus. reflexivity. }
      assert (E2 : nq (S m) * s == nq m * s + s) by (rewrite E; ring). clear E IHm.
      revert Hu q E2. generalize (nq (S m) * s), (nq m * s). intros u w; intros.
      assert (Hh : s == s / 2 + s / 2) by field. revert Hu q Hh. generalize (s / 2). intros h; intros. split; qlra.
    + destruct (IHm q) as (i & Hi & A). exists i. split; auto.
Qed.

Lemma range_cover lo hi n x : (1 <= n)%nat -> lo <= hi -> lo <= x -> x <= hi ->
  exists i c, is_centre (lo, hi, n) i c /\ Qabs (x - c) <= width (lo, hi, n) / 2.
Proof.
  intros Hn Hr Hl Hu. unfold is_centre, width. destruct (Nat.eqb_spec n 1).
  - exists 0%nat, ((lo + hi) / 2). split; [split; [lia|reflexivity]|]. apply Qabs_Qle_condition. split; qlra.
  - set (s := (hi - lo) / (inject_Z (Z.of_nat n) - 1)).
    destruct n as [|m]; [lia|]. 
    assert (E : inject_Z (Z.of_nat (S m)) - 1 == nq m).
    { unfold nq. rewrite Nat2Z.inj_succ. unfold Z.succ. rewrite inject_Z_plus. change (inject_Z 1) with 1. ring. }
    assert (Hm : 0 < nq m) by (apply nq_pos; lia).
    assert (Es : nq m * s == hi - lo). { unfold s. rewrite E. field. qlra. }
    assert (Hs : 0 <= s). { unfold s. rewrite E. apply Qle_shift_div_l; auto. qlra. }
    destruct (axis_cover lo s x m) as (i & Hi & A); [auto|qlra|rewrite Es; qlra|].
    exists i, (lo + nq i * s). split; [|exact A]. split; [lia|reflexivity].
Qed.

Lemma cells_cover ranges v : Forall2 (fun r x => let '(lo, hi, n) := r in (1 <= n)%nat /\ lo <= x /\ x <= hi) ranges v ->
  exists c, is_cell ranges c /\ within_cell ranges c v.
Proof.
  unfold is_cell, within_cell. induction 1.
  - exists []. repeat split; auto. intros [|i]; simpl; discriminate.
  - destruct IHForall2 as (c & A & B & C & D). destruct x as [[lo hi] n]. destruct H as (H1 & H2 & H3).
    destruct (range_cover lo hi n y) as (i & z & Hz & Hw); auto; [qlra|].
    exists (z :: c). split; [constructor; eauto|]. repeat split; simpl; auto.
    intros [|j] r x1 y1; simpl.
    + intros E1 E2 E3; inversion E1; inversion E2; inversion E3; subst; auto.
    + apply D.
Qed.

(** Two different bins of one axis share at most their common boundary. *)
Lemma bins_share_boundary r i j ci cj x : 0 < width r ->
  (let '(_, _, n) := r in n <> 1%nat) -> (i < j)%nat ->
  is_centre r i ci -> is_centre r j cj -> Qabs (x - ci) <= width r / 2 -> Qabs (x - cj) <= width r / 2 ->
  j = S i /\ x == ci + width r / 2.
Proof.
  destruct r as [[lo hi] n]. intros Hw Hn Hij Hi Hj A B.
  unfold is_centre in Hi, Hj. destruct (Nat.eqb_spec n 1); [tauto|].
  destruct Hi as [_ Hi], Hj as [_ Hj]. set (s := width (lo, hi, n)) in *.
  apply Qabs_Qle_condition in A. apply Qabs_Qle_condition in B. destruct A, B.
  assert (E : cj - ci == inject_Z (Z.of_nat j - Z.of_nat i) * s).
  { rewrite Hi, Hj. unfold Z.sub. rewrite inject_Z_plus, inject_Z_opp. ring. }
  assert (U : inject_Z (Z.of_nat j - Z.of_nat i) * s <= 1 * s) by qlra.
  apply Qmult_le_r in U; auto. change 1 with (inject_Z 1) in U. rewrite <- Zle_Qle in U.
  assert (J : j = S i) by lia. split; auto.
  subst j. replace (Z.of_nat (S i) - Z.of_nat i)%Z with 1%Z in E by lia. change (inject_Z 1) with 1 in E. qlra.
Qed.

(** A point on the boundary between neighbouring bins lies in both. *)
Lemma boundary_in_both r i ci cj : 0 <= width r -> (let '(_, _, n) := r in n <> 1%nat) ->
  is_centre r i ci -> is_centre r (S i) cj ->
  Qabs ((ci + width r / 2) - ci) <= width r / 2 /\ Qabs ((ci + width r / 2) - cj) <= width r / 2.
Proof.
  destruct r as [[lo hi] n]. intros Hw Hn Hi Hj. unfold is_centre in Hi, Hj.
  destruct (Nat.eqb_spec n 1); [tauto|]. destruct Hi as [_ Hi], Hj as [_ Hj].
  set (s := width (lo, hi, n)) in *.
  assert (E : cj == ci + s).
  { rewrite Hi, Hj, Nat2Z.inj_succ. unfold Z.succ. rewrite inject_Z_plus. change (inject_Z 1) with 1. ring. }
  split; apply Qabs_Qle_condition; split; qlra.
Qed.

(** ** The binned columns under the default keys *)
Lemma remove_first_in k x l : NoDup l -> (In x (remove_first k l) <-> In x l /\ x <> k).
Proof.
  induction 1 as [|y l Hy N IH]; simpl; [tauto|].
  destruct (String.eqb_spec y k).
  - subst. split; [intros H; split; auto; intros ->; tauto|]. intros [[E|E] H]; [congruence|auto].
  - simpl. rewrite IH. split; [intros [E|[E H]]; split; auto; congruence|]. intros [[E|E] H]; auto.
Qed.
Lemma remove_first_nodup k l : NoDup l -> NoDup (remove_first k l).
Proof.
  induction 1 as [|y l Hy N IH]; simpl; [constructor|].
  destruct (String.eqb_spec y k); auto. constructor; auto. rewrite remove_first_in by auto. tauto.
Qed.
Lemma NoDup_snoc {A} (l : list A) x : NoDup l -> ~ In x l -> NoDup (l ++ [x]).
Proof.
  induction 1; simpl; intros; repeat constructor; auto.
  rewrite in_app_iff. simpl. intuition.
Qed.
Lemma bin_keys_default to_bin : NoDup (map fst to_bin) ->
  NoDup (bin_keys default_qkeys to_bin true) /\
  (forall k, In k (bin_keys default_qkeys to_bin true) <-> In k (map fst to_bin) \/ In k ["h"; "k"; "l"; "e"; "temp"]).
Proof.
  unfold bin_keys. generalize (map fst to_bin) as ks. intros ks N.
  assert (G : forall names ks, NoDup ks ->
    let r := fold_left (fun acc kv => (if mem (fst kv) acc then remove_first (fst kv) acc else acc) ++ [snd kv])%list
                       (map (fun n => (n, n)) names) ks in
    NoDup r /\ forall k, In k r <-> In k ks \/ In k names).
  { clear. induction names as [|n names IH]; intros ks N; cbn [map fold_left].
    - split; auto. simpl. tauto.
    - cbn [fst snd].
      set (ks' := ((if mem n ks then remove_first n ks else ks) ++ [n])%list).
      assert (A : NoDup ks' /\ forall k, In k ks' <-> In k ks \/ k = n).
      { unfold ks'. destruct (mem n ks) eqn:M.
        - apply mem_In in M. split.
          + apply NoDup_snoc; [now apply remove_first_nodup|]. rewrite remove_first_in by auto. tauto.
          + intros k. rewrite in_app_iff, remove_first_in by auto. simpl. split.
            * intros [[]|[->|[]]]; auto.
            * intros [H| ->]; auto. destruct (String.eqb_spec k n); [subst; auto|left; auto].
        - assert (~ In n ks) by (intros Q; apply mem_In in Q; congruence). split.
          + now apply NoDup_snoc.
          + intros k. rewrite in_app_iff. simpl. intuition congruence. }
      destruct A as [A1 A2]. destruct (IH ks' A1) as [B1 B2]. split; auto.
      intros k. etransitivity; [exact (B2 k)|]. rewrite A2. simpl. intuition congruence. }
  exact (G ["h"; "k"; "l"; "e"; "temp"] ks N).
Qed.

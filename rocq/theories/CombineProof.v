From Coq Require Import String List QArith Qabs Bool Arith Lia Lqa Permutation Sorted Setoid Morphisms.
From Verif Require Import Base DataModel DataSpec DataProof.
Import ListNotations.

Lemma effective_expand t nk n ts : effective_tols t nk n ts -> expand_tols t nk n = Ok ts.
Proof.
  unfold effective_tols, expand_tols; destruct t.
  - intros [-> ->]. replace (n + 3 - 3)%nat with n by lia. rewrite repeat_length, Nat.eqb_refl.
    reflexivity.
  - now intros ->.
  - intros [[L ->]|(q & -> & Hn & ->)].
    + apply Nat.eqb_eq in L. now rewrite L.
    + cbn [length]. destruct (Nat.eqb_spec 1 n); [lia|reflexivity].
Qed.

(** ** Conservation of counts *)
Definition sumk (ks : list key) (k : key) (rs : list (list Q)) : Q := Qsum (map (fun r => getq ks r k) rs).

Lemma Qsum_app a b : Qsum (a ++ b) == Qsum a + Qsum b.
Proof. unfold Qsum; induction a; cbn [app fold_right]; [ring|]. rewrite IHa. ring. Qed.

Lemma sumk_app ks k a b : sumk ks k (a ++ b) == sumk ks k a + sumk ks k b.
Proof. unfold sumk. rewrite map_app. apply Qsum_app. Qed.
Lemma sumk_cons ks k a b : sumk ks k (a :: b) == getq ks a k + sumk ks k b.
Proof. reflexivity. Qed.
Lemma Qsum_perm a b : Permutation a b -> Qsum a == Qsum b.
Proof.
  induction 1; unfold Qsum in *; cbn [fold_right]; try ring.
  - rewrite IHPermutation; ring.
  - rewrite IHPermutation1; auto.
Qed.

Lemma getq_addp dk ks ks_o o r k :
  length r = length ks -> In k ks -> mem k dk = true ->
  getq ks (addp dk ks ks_o o r) k = getq ks r k + getq ks_o o k.
Proof.
  intros L I M. unfold getq at 1 2. rewrite lookup_addp; auto.
  destruct (lookup_some ks r k L I) as [v ->]. now rewrite M.
Qed.
Lemma getq_reord ks ks_o o k : In k ks -> getq ks (reord ks ks_o o) k = getq ks_o o k.
Proof. intros. unfold getq at 1. now rewrite lookup_reord. Qed.

Lemma comb_loop_sum t dks kss dko kso orig k : In k kss -> mem k dks = true ->
  forall os tmp out, Forall (fun r => length r = length kss) tmp ->
  comb_loop t dks kss dko kso orig os tmp = Ok out ->
  sumk kss k out == sumk kss k tmp + sumk kso k os /\ Forall (fun r => length r = length kss) out.
Proof.
  intros Hk Hm. induction os as [|o os IH]; intros tmp out F E; cbn [comb_loop] in E.
  - inversion E; subst; split; auto. unfold sumk; cbn. ring.
  - destruct (scan t (length kso) (coords dko kso o) orig 0) as [p|]; [|discriminate].
    destruct p as [j|].
    + destruct (upd_res j _ _) eqn:Eu; [|discriminate].
      apply upd_res_ok in Eu. destruct Eu as (l1 & x & y & l2 & -> & Hl1 & Hf & ->).
      apply add_row_ok in Hf. subst y.
      rewrite Forall_app in F. destruct F as [F1 F2]. inversion F2; subst.
      apply IH in E.
      * destruct E as [E F']; split; auto. rewrite E, !sumk_app, !sumk_cons, getq_addp; auto. ring.
      * rewrite Forall_app; split; auto. constructor; auto. now apply addp_length.
    + destruct (append_row kss kso o) as [r|] eqn:Ea; [|discriminate].
      apply append_row_ok in Ea. subst r. apply IH in E.
      * destruct E as [E F']; split; auto. rewrite E, sumk_app, !sumk_cons, getq_reord; auto.
        unfold sumk; cbn. ring.
      * rewrite Forall_app; split; auto. constructor; auto. unfold reord; apply map_length.
Qed.

Lemma mem_In k l : mem k l = true <-> In k l.
Proof.
  unfold mem. rewrite existsb_exists. split.
  - intros (x & H & E). apply String.eqb_eq in E. now subst.
  - intros; exists k; split; auto. apply String.eqb_refl.
Qed.

Lemma combine_table_ok self obj t tb : combine_table self obj t = Ok tb ->
  exists tmp,
    comb_loop t (dk_list (dk self)) (keys (tab self)) (dk_list (dk obj)) (keys (tab obj))
      (map (coords (dk_list (dk self)) (keys (tab self))) (rows (tab self)))
      (rows (tab obj)) (rows (tab self)) = Ok tmp /\
    keys tb = keys (tab self) /\
    rows tb = sort_rows (row_leb (dk_list (dk self)) (keys (tab self))) tmp.
Proof.
  unfold combine_table. destruct (comb_loop _ _ _ _ _ _ _ _) as [tmp|]; [|discriminate].
  destruct (Nat.eqb _ 0); [discriminate|]. intros E; inversion E; subst; simpl. eauto.
Qed.

Lemma col_sum tb k c : col tb k = Some c -> Qsum c = sumk (keys tb) k (rows tb) /\ In k (keys tb).
Proof.
  unfold col. destruct (mem k (keys tb)) eqn:M; [|discriminate]. intros E; inversion E. split.
  - reflexivity.
  - now apply mem_In.
Qed.

Lemma combine_sums self obj t tb k c1 c2 :
  wf_table (tab self) -> combine_table self obj t = Ok tb -> In k (dk_list (dk self)) ->
  col (tab self) k = Some c1 -> col (tab obj) k = Some c2 ->
  exists c, col tb k = Some c /\ Qsum c == Qsum c1 + Qsum c2.
Proof.
  intros [_ F] E Hk H1 H2. apply combine_table_ok in E. destruct E as (tmp & E & Ek & Er).
  apply col_sum in H1. destruct H1 as [-> I1]. apply col_sum in H2. destruct H2 as [-> I2].
  assert (M : mem k (keys tb) = true) by (rewrite Ek; now apply mem_In).
  unfold col. rewrite M. eexists; split; [reflexivity|].
  eapply comb_loop_sum in E; eauto; [|now apply mem_In]. destruct E as [E _]. rewrite <- E.
  change (sumk (keys tb) k (rows tb) == sumk (keys (tab self)) k tmp). rewrite Ek, Er.
  apply Qsum_perm. apply Permutation_map. symmetry; apply sort_rows_perm.
Qed.

Lemma Forall2_len {A B} (R : A -> B -> Prop) l1 l2 : Forall2 R l1 l2 -> length l1 = length l2.
Proof. induction 1; simpl; auto. Qed.

(** ** Row correspondence *)
Lemma Forall2_map_r {A B} (R : A -> B -> Prop) f l : Forall (fun x => R x (f x)) l -> Forall2 R l (map f l).
Proof. induction 1; simpl; constructor; auto. Qed.

Lemma mapi_nth {A B} (f : nat -> A -> B) l j i x : nth_error l i = Some x -> nth_error (mapi f j l) i = Some (f (j + i)%nat x).
Proof.
  revert j i; induction l; destruct i; simpl; try discriminate.
  - intros E; inversion E; subst. now rewrite Nat.add_0_r.
  - intros. rewrite (IHl (S j) i); auto. f_equal. f_equal. lia.
Qed.

Lemma combine_rows self obj t ts tb :
  wf_table (tab self) -> wf_table (tab obj) ->
  effective_tols t (length (keys (tab obj))) (ncoords self) ts ->
  combine_table self obj t = Ok tb ->
  exists merged appended,
    keys tb = keys (tab self) /\
    Permutation (rows tb) (merged ++ appended) /\
    length merged = length (rows (tab self)) /\
    (forall j r, nth_error (rows (tab self)) j = Some r ->
       exists r', nth_error merged j = Some r' /\ length r' = length (keys (tab self)) /\
                  gains self obj (merged_into ts self obj j) r r') /\
    Forall2 (same_point self obj) (unmatched ts self obj) appended.
Proof.
  intros [N F] [N' F'] Ht E. apply effective_expand in Ht.
  apply combine_table_ok in E. destruct E as (tmp & E & Ek & Er).
  assert (P := E). eapply comb_loop_present in P; eauto.
  pose proof (comb_loop_ok t (dk_list (dk self)) (keys (tab self)) (dk_list (dk obj)) (keys (tab obj)) (rows (tab self)) ts Ht F (rows (tab obj)) (rows (tab self)) [] tmp eq_refl) as Q.
  rewrite app_nil_r in Q. specialize (Q E).
  cbn [app] in Q.
  set (dks := dk_list (dk self)) in *. set (kss := keys (tab self)) in *.
  set (dko := dk_list (dk obj)) in *. set (kso := keys (tab obj)) in *.
  set (sr := rows (tab self)) in *.
  assert (EH : forall j o, hit dks kss dko kso sr ts j o =
     match partner ts self obj o with Some i => Nat.eqb i j | None => false end) by reflexivity.
  assert (EM : forall o, miss dks kss dko kso sr ts o =
     match partner ts self obj o with Some _ => false | None => true end) by reflexivity.
  exists (mapi (acc dks kss dko kso sr ts (rows (tab obj))) 0 sr), (map (reord kss kso) (filter (miss dks kss dko kso sr ts) (rows (tab obj)))).
  split; [auto|]. split.
  { rewrite Er, Q. symmetry; apply sort_rows_perm. }
  split; [apply mapi_length|]. split.
  - intros j r Hj. eexists; split; [apply (mapi_nth _ _ 0); eauto|].
    assert (Lr : length r = length kss).
    { rewrite Forall_forall in F. apply F. eapply nth_error_In; eauto. }
    split; [now apply acc_length|]. cbn [Nat.add].
    intros k v Hv. destruct (acc_lookup dks kss dko kso sr ts (rows (tab obj)) j r k v Lr Hv) as (v' & Hv' & H).
    exists v'; split; auto. fold dks. destruct (mem k dks) eqn:M; auto.
    exists (map (fun o => getq kso o k) (filter (hit dks kss dko kso sr ts j) (rows (tab obj)))).
    split; auto. unfold merged_into.
    assert (Hk : In k kss) by (now apply lookup_in in Hv).
    assert (P' : Forall (fun o => lookup kso o k <> None) (filter (hit dks kss dko kso sr ts j) (rows (tab obj)))).
    { rewrite Forall_forall in *. intros o Ho. apply filter_In in Ho. destruct Ho as [Ho _].
      destruct (P o Ho) as [P1 _]. auto. }
    replace (filter (fun o => match partner ts self obj o with Some i => Nat.eqb i j | None => false end) (rows (tab obj)))
      with (filter (hit dks kss dko kso sr ts j) (rows (tab obj))) by (apply filter_ext; auto).
    apply Forall2_map_r. eapply Forall_impl; [|exact P']. intros x Hx. unfold getq. fold kso. cbn in Hx. destruct (lookup kso x k); congruence.
  - unfold unmatched.
    replace (filter (fun o => match partner ts self obj o with Some _ => false | None => true end) (rows (tab obj)))
      with (filter (miss dks kss dko kso sr ts) (rows (tab obj))) by (apply filter_ext; auto).
    assert (P' : Forall (fun o => forall k, In k kss -> lookup kso o k <> None) (filter (miss dks kss dko kso sr ts) (rows (tab obj)))).
    { rewrite Forall_forall in *. intros o Ho. apply filter_In in Ho. destruct Ho as [Ho Hm].
      destruct (P o Ho) as [_ P1]. auto. }
    apply Forall2_map_r. eapply Forall_impl; [|exact P']. intros x H. split.
    + unfold reord; apply map_length.
    + intros k Hk. fold kss kso. rewrite lookup_reord; auto. specialize (H k Hk).
      unfold getq. destruct (lookup kso x k); split; congruence.
Qed.

(** ** Order *)
Lemma combine_sorted self obj t tb :
  wf_table (tab self) -> combine_table self obj t = Ok tb ->
  StronglySorted (fun a b => lex_le (rev (pos self a)) (rev (pos self b))) (rows tb).
Proof.
  intros [N F] E. apply combine_table_ok in E. destruct E as (tmp & E & Ek & Er).
  assert (FT : Forall (fun r => length r = length (keys (tab self))) tmp).
  { clear - E F. revert E F.
    generalize (rows (tab obj)) as os, (rows (tab self)) at 2 3 as tm. 
    set (kss := keys (tab self)). set (orig := map _ _).
    induction os as [|o os IH]; intros tm E F; cbn [comb_loop] in E.
    - inversion E; subst; auto.
    - destruct (scan _ _ _ _ _) as [p|]; [|discriminate]. destruct p as [j|].
      + destruct (upd_res j _ _) eqn:Eu; [|discriminate]. eapply IH; [exact E|].
        apply upd_res_ok in Eu. destruct Eu as (l1 & x & y & l2 & -> & Hl1 & Hf & ->).
        apply add_row_ok in Hf. subst y. rewrite Forall_app in *. destruct F as [F1 F2].
        inversion F2; subst. split; auto. constructor; auto. now apply addp_length.
      + destruct (append_row kss _ o) as [r|] eqn:Ea; [|discriminate].
        eapply IH; [exact E|]. apply append_row_ok in Ea. subst r.
        rewrite Forall_app; split; auto. constructor; auto. unfold reord; apply map_length. }
  rewrite Er.
  assert (S : StronglySorted (fun a b => row_leb (dk_list (dk self)) (keys (tab self)) a b = true)
               (sort_rows (row_leb (dk_list (dk self)) (keys (tab self))) tmp)).
  { apply sort_sorted with (P := fun r => length r = length (keys (tab self))); auto.
    - intros; apply lex_leb_total.
    - intros a b c Ha Hb Hc. unfold row_leb. apply lex_leb_trans; rewrite !rev_length, !coords_length; auto. }
  assert (FS : Forall (fun r => length r = length (keys (tab self))) (sort_rows (row_leb (dk_list (dk self)) (keys (tab self))) tmp)).
  { now rewrite <- sort_rows_perm. }
  clear - S FS. induction S; constructor.
  - apply IHS. now inversion FS.
  - inversion FS; subst. rewrite Forall_forall in *. intros b Hb.
    apply lex_leb_spec; [|now apply H]. unfold pos. rewrite !rev_length, !coords_length; auto.
Qed.

(** ** Totality *)
Lemma NoDup_coords_count ks dks : NoDup ks -> NoDup dks -> (forall k, In k dks -> In k ks) ->
  length (filter (fun k => negb (mem k dks)) ks) = (length ks - length dks)%nat.
Proof.
  intros N1 N2 I.
  assert (L : (length (filter (fun k => mem k dks) ks) + length (filter (fun k => negb (mem k dks)) ks) = length ks)%nat).
  { clear. induction ks; simpl; auto. destruct (mem a dks); simpl; lia. }
  assert (L2 : length (filter (fun k => mem k dks) ks) = length dks).
  { apply Permutation_length. apply NoDup_Permutation; auto.
    - now apply NoDup_filter.
    - intros k. rewrite filter_In, mem_In. split; [tauto|]. auto. }
  lia.
Qed.

Lemma keys_len_eq (l1 l2 : list key) : NoDup l1 -> NoDup l2 -> (forall k, In k l1 <-> In k l2) -> length l1 = length l2.
Proof. intros. apply Permutation_length. now apply NoDup_Permutation. Qed.

Lemma combine_total self obj t ts :
  same_columns self obj -> effective_tols t (length (keys (tab obj))) (ncoords self) ts ->
  exists tb, combine_table self obj t = Ok tb.
Proof.
  intros ([N F] & [N' F'] & Ed & Hk & Nd & Hd & Hc) Ht. apply effective_expand in Ht.
  unfold combine_table.
  set (dks := dk_list (dk self)) in *. set (kss := keys (tab self)) in *.
  assert (Edo : dk_list (dk obj) = dks) by (unfold dks; now rewrite Ed).
  rewrite Edo. set (kso := keys (tab obj)) in *.
  assert (Hn : ncoords self = length (filter (fun k => negb (mem k dks)) kss)) by reflexivity.
  assert (Hn' : length (filter (fun k => negb (mem k dks)) kso) = ncoords self).
  { rewrite Hn. rewrite (NoDup_coords_count kso dks), (NoDup_coords_count kss dks); auto.
    - f_equal. apply keys_len_eq; auto. intros; now rewrite Hk.
    - intros; apply Hk; auto. }
  assert (G : forall os tmp, Forall (fun r => length r = length kso) os ->
     (length (rows (tab self)) <= length tmp)%nat -> Forall (fun r => length r = length kss) tmp ->
     exists out, comb_loop t dks kss dks kso (map (coords dks kss) (rows (tab self))) os tmp = Ok out).
  { induction os as [|o os IH]; intros tmp Fo Lt Ft; cbn [comb_loop]; eauto.
    inversion Fo; subst.
    assert (Sc : forall l j, Forall (fun r => length r = length kss) l -> exists p,
        scan t (length kso) (coords dks kso o) (map (coords dks kss) l) j = Ok p /\
        (forall i, p = Some i -> j <= i < j + length l)%nat).
    { induction l as [|r l IHl]; intros j Fl; cbn [map scan]; [exists None; split; auto; discriminate|].
      inversion Fl; subst. unfold close.
      rewrite !coords_length; auto. rewrite Hn', <- Hn, Nat.eqb_refl, Ht.
      destruct (within _ _ _).
      - exists (Some j); split; auto. intros i Hi; inversion Hi; simpl; lia.
      - destruct (IHl (S j)) as (p & -> & B); auto. exists p; split; auto.
        intros i Hi. specialize (B i Hi). simpl; lia. }
    destruct (Sc (rows (tab self)) 0%nat F) as (p & -> & B). destruct p as [j|].
    - destruct (upd_res_total (add_row dks kss kso o) tmp j) as [tmp' Eu].
      + specialize (B j eq_refl). lia.
      + intros r Hr. unfold add_row. apply map_res_total. intros [k v] Hkv. cbn [fst snd].
        destruct (mem k dks); [|now exists v]. apply in_combine_l in Hkv.
        destruct (lookup_some kso o k) as [w ->]; [assumption|now apply Hk|eauto].
      + rewrite Eu. apply upd_res_ok in Eu.
        destruct Eu as (l1 & x & y & l2 & -> & Hl1 & Hf & ->). apply add_row_ok in Hf. subst y.
        apply IH; auto.
        * rewrite app_length in *. simpl in *. lia.
        * rewrite Forall_app in *. destruct Ft as [F1 F2]. inversion F2; subst. split; auto.
          constructor; auto. now apply addp_length.
    - destruct (map_res_total (fun k => match lookup kso o k with Some v => Ok v | None => Err KeyError end) kss) as [r Er].
      { intros k Hkk. destruct (lookup_some kso o k) as [w ->]; [assumption|now apply Hk|eauto]. }
      unfold append_row. rewrite Er. apply IH; auto.
      + rewrite app_length; lia.
      + rewrite Forall_app; split; auto. constructor; auto.
        apply map_res_ok_in in Er. symmetry; eapply Forall2_len; exact Er. }
  destruct (G (rows (tab obj)) (rows (tab self))) as [out ->]; auto.
  rewrite Hn in Hc. destruct (Nat.eqb_spec (length (filter (fun k => negb (mem k dks)) kss)) 0); [lia|eauto].
Qed.

(** ** Exact matching: addition of histograms *)
Lemma same_pos_iff a b : same_pos a b = true <-> Forall2 Qeq a b.
Proof.
  unfold same_pos. revert b; induction a as [|x a IH]; intros [|y b]; simpl; split; intros H; try discriminate; auto; try (inversion H; fail).
  - apply andb_true_iff in H. destruct H as [H1 H2]. apply andb_true_iff in H2. destruct H2.
    constructor; [now apply Qeq_bool_iff|]. apply IH. now rewrite H1, H0.
  - inversion H; subst. apply IH in H5. apply andb_true_iff in H5. destruct H5 as [-> ->].
    rewrite andb_true_r. simpl. now apply Qeq_bool_iff.
Qed.

Lemma Forall2_Qeq_sym a b : Forall2 Qeq a b -> Forall2 Qeq b a.
Proof. induction 1; constructor; auto. now symmetry. Qed.
Lemma Forall2_Qeq_trans a b c : Forall2 Qeq a b -> Forall2 Qeq b c -> Forall2 Qeq a c.
Proof. intros H; revert c; induction H; intros c H2; inversion H2; subst; constructor; eauto. now rewrite H. Qed.
Lemma Forall2_Qeq_refl a : Forall2 Qeq a a.
Proof. induction a; constructor; auto. reflexivity. Qed.

Lemma same_pos_congr a b c : Forall2 Qeq a b -> same_pos a c = same_pos b c.
Proof.
  intros H. destruct (same_pos a c) eqn:E1, (same_pos b c) eqn:E2; auto.
  - apply same_pos_iff in E1. rewrite <- E2. symmetry; apply same_pos_iff.
    eapply Forall2_Qeq_trans; eauto. now apply Forall2_Qeq_sym.
  - apply same_pos_iff in E2. rewrite <- E1. apply same_pos_iff.
    eapply Forall2_Qeq_trans; eauto.
Qed.

Lemma near_zero n a b : length a = n -> length b = n -> near (repeat 0 n) a b = true <-> Forall2 Qeq a b.
Proof.
  unfold near. revert a b; induction n; intros [|x a] [|y b]; cbn [length repeat List.combine forallb fst snd]; intros; try lia.
  - split; auto.
  - rewrite andb_true_iff, IHn by lia. rewrite Qle_bool_iff. split.
    + intros [H1 H2]. constructor; auto. apply Qabs_Qle_condition in H1. destruct H1.
      lra.
    + intros H1. inversion H1; subst. split; auto. rewrite H5.
      setoid_replace (y - y) with 0 by ring. apply Qle_refl.
Qed.

Definition cnt (dks ks : list key) (c : list Q) (k : key) (rs : list (list Q)) : Q :=
  Qsum (map (fun r => getq ks r k) (filter (fun r => same_pos (coords dks ks r) c) rs)).

Lemma cnt_app dks ks c k a b : cnt dks ks c k (a ++ b) == cnt dks ks c k a + cnt dks ks c k b.
Proof. unfold cnt. rewrite filter_app, map_app. apply Qsum_app. Qed.
Lemma cnt_cons dks ks c k a b : cnt dks ks c k (a :: b) ==
  (if same_pos (coords dks ks a) c then getq ks a k else 0) + cnt dks ks c k b.
Proof. unfold cnt. cbn [filter]. destruct (same_pos _ _); cbn [map Qsum fold_right]; unfold Qsum; ring. Qed.
Lemma Permutation_filter {A} (p : A -> bool) l1 l2 : Permutation l1 l2 -> Permutation (filter p l1) (filter p l2).
Proof. induction 1; simpl; auto; repeat destruct (p _); auto; try constructor; eauto. etransitivity; eauto. Qed.
Lemma cnt_perm dks ks c k a b : Permutation a b -> cnt dks ks c k a == cnt dks ks c k b.
Proof. intros. unfold cnt. apply Qsum_perm, Permutation_map. now apply Permutation_filter. Qed.

Lemma reord_id kss o : NoDup kss -> length o = length kss -> reord kss kss o = o.
Proof.
  unfold reord. revert o; induction kss; intros [|x o]; simpl; intros N L; try lia; auto.
  inversion N; subst. unfold getq at 1. simpl. rewrite String.eqb_refl. f_equal.
  rewrite <- (IHkss o) at 2; auto. apply map_ext_in. intros k Hk. unfold getq. simpl.
  destruct (String.eqb_spec a k); subst; tauto.
Qed.

(** keys in the same order, exact matching: one loop step adds exactly one point to the histogram *)
Lemma comb_loop_cnt t dks kss sr c k : NoDup kss ->
  expand_tols t (length kss) (length (filter (fun k => negb (mem k dks)) kss))
    = Ok (repeat 0 (length (filter (fun k => negb (mem k dks)) kss))) ->
  Forall (fun r => length r = length kss) sr -> In k kss -> mem k dks = true ->
  forall os tmp out,
  Forall (fun r => length r = length kss) os ->
  Forall (fun r => length r = length kss) tmp ->
  (forall j r, nth_error sr j = Some r -> exists r', nth_error tmp j = Some r' /\ coords dks kss r' = coords dks kss r) ->
  comb_loop t dks kss dks kss (map (coords dks kss) sr) os tmp = Ok out ->
  cnt dks kss c k out == cnt dks kss c k tmp + cnt dks kss c k os.
Proof.
  intros N Ht Fs Hk Hm. induction os as [|o os IH]; intros tmp out Fo Ft Inv E; cbn [comb_loop] in E.
  - inversion E; subst. unfold cnt at 3. cbn. ring.
  - inversion Fo; subst.
    destruct (scan _ _ _ _ _) as [p|] eqn:Es; [|discriminate E].
    apply (scan_part t dks kss dks kss sr _ Ht Fs) in Es. unfold part in Es.
    destruct p as [j|].
    + symmetry in Es.
      assert (exists rj, nth_error sr j = Some rj /\ near (repeat 0 (length (filter (fun k => negb (mem k dks)) kss))) (coords dks kss rj) (coords dks kss o) = true).
      { clear - Es. revert j Es. induction sr; simpl; [discriminate|]. intros j.
        destruct (near _ (coords dks kss a) _) eqn:En.
        - intros E; inversion E; subst. exists a; auto.
        - destruct (first_index _ sr); simpl; [|discriminate]. intros E; inversion E; subst.
          apply IHsr; auto. }
      destruct H as (rj & Hj & Hn).
      destruct (upd_res j _ _) eqn:Eu; [|discriminate E].
      apply upd_res_ok in Eu. destruct Eu as (l1 & x & y & l2 & -> & Hl1 & Hf & ->).
      apply add_row_ok in Hf. subst y.
      destruct (Inv j rj Hj) as (r' & Hr' & Hcr).
      rewrite nth_error_app2 in Hr' by lia. rewrite Hl1, Nat.sub_diag in Hr'. simpl in Hr'. inversion Hr'; subst r'.
      rewrite Forall_app in Ft. destruct Ft as [F1 F2]. inversion F2; subst.
      assert (Lrj : length rj = length kss).
      { rewrite Forall_forall in Fs. apply Fs. eapply nth_error_In; eauto. }
      apply near_zero in Hn; [|now rewrite coords_length|now rewrite coords_length].
      apply IH in E; auto.
      * rewrite E. rewrite !cnt_app, !cnt_cons. rewrite coords_addp; auto. rewrite Hcr.
        rewrite (same_pos_congr _ _ c Hn). rewrite getq_addp; auto.
        destruct (same_pos (coords dks kss o) c); ring.
      * rewrite Forall_app; split; auto. constructor; auto. now apply addp_length.
      * intros i r Hi. destruct (Inv i r Hi) as (r' & Hr1 & Hr2).
        destruct (lt_eq_lt_dec i (length l1)) as [[Hlt|Heq]|Hgt].
        -- rewrite nth_error_app1 in * by auto. eauto.
        -- subst i. rewrite nth_error_app2, Nat.sub_diag in * by lia. simpl in *.
           inversion Hr1; subst. exists (addp dks kss kss o r'); split; auto.
           rewrite coords_addp; auto.
        -- rewrite nth_error_app2 in * by lia. destruct (i - length l1)%nat eqn:Ei; [lia|]. simpl in *. eauto.
    + destruct (append_row kss kss o) as [r|] eqn:Ea; [|discriminate E].
      apply append_row_ok in Ea. subst r. rewrite reord_id in E; auto.
      apply IH in E; auto.
      * rewrite E, cnt_app, !cnt_cons. unfold cnt at 2. cbn. ring.
      * rewrite Forall_app; split; auto.
      * intros i r Hi. destruct (Inv i r Hi) as (r' & Hr1 & Hr2). exists r'; split; auto.
        rewrite nth_error_app1; auto. apply nth_error_Some. congruence.
Qed.

Lemma filter_length_ext_mapi {A} (p : A -> bool) (f : nat -> A -> A) l j :
  (forall i x, In x l -> p (f i x) = p x) -> length (filter p (mapi f j l)) = length (filter p l).
Proof.
  revert j; induction l; simpl; intros j H; auto. rewrite H by auto.
  destruct (p a); simpl; rewrite IHl; auto.
Qed.

Lemma near_zero_part self obj o c :
  wf_table (tab self) -> keys (tab self) = keys (tab obj) -> dk self = dk obj ->
  length o = length (keys (tab obj)) ->
  same_pos (pos obj o) c = true ->
  match partner (repeat 0 (ncoords self)) self obj o with
  | Some _ => (0 < length (points_at self c))%nat
  | None => length (points_at self c) = 0%nat
  end.
Proof.
  intros [N F] Ek Ed Lo Hc. unfold partner, points_at.
  assert (NZ : forall r, length r = length (keys (tab self)) ->
     near (repeat 0 (ncoords self)) (pos self r) (pos obj o) = same_pos (pos self r) c).
  { intros r Lr.
    assert (Z := near_zero (ncoords self) (pos self r) (pos obj o)).
    unfold pos in Z. rewrite !coords_length in Z; auto.
    rewrite <- Ek, <- Ed in Z. specialize (Z eq_refl eq_refl). fold (pos self r) in Z.
    assert (Po : pos obj o = coords (dk_list (dk self)) (keys (tab self)) o) by (unfold pos; now rewrite Ek, Ed).
    rewrite <- Po in Z.
    destruct (near _ _ _) eqn:E1, (same_pos (pos self r) c) eqn:E2; auto.
    - assert (X := proj1 Z eq_refl). rewrite (same_pos_congr _ _ c X) in E2. congruence.
    - apply same_pos_iff in E2. apply same_pos_iff in Hc.
      apply Z. eapply Forall2_Qeq_trans; eauto. now apply Forall2_Qeq_sym. }
  clear - NZ F. induction F as [|r l Hr F IH]; simpl; auto.
  rewrite NZ by auto. destruct (same_pos (pos self r) c); simpl; [lia|].
  destruct (first_index _ l); simpl; auto.
Qed.

Lemma combine_points_at self obj t d' c :
  same_layout self obj -> exact_matching t self obj -> combine_inplace self obj t = Ok d' ->
  length (points_at d' c) =
    (length (points_at self c) + (if Nat.eqb (length (points_at self c)) 0 then length (points_at obj c) else 0))%nat.
Proof.
  intros [([N F] & [N' F'] & Ed & Hk & Nd & Hd & Hc) Ek] Ht E.
  unfold exact_matching in Ht.
  assert (Ht' := effective_expand _ _ _ _ Ht).
  unfold combine_inplace in E. destruct (combine_table self obj t) as [tb|] eqn:E'; [|discriminate E].
  inversion E; subst d'; clear E. assert (W : wf_table (tab self)) by (split; auto).
  apply combine_table_ok in E'. destruct E' as (tmp & E & Ek' & Er).
  assert (L := comb_loop_ok t (dk_list (dk self)) (keys (tab self)) (dk_list (dk obj)) (keys (tab obj)) (rows (tab self))
      _ Ht' F (rows (tab obj)) (rows (tab self)) [] tmp eq_refl).
  rewrite app_nil_r in L. specialize (L E). cbn [app] in L.
  unfold points_at at 1. cbn [tab]. rewrite Er.
  assert (EP : forall r, pos {| tab := tb; dk := dk self; m0 := m0 self; t0 := t0 self; err := err self; time_norm := time_norm self |} r = pos self r).
  { intros; unfold pos; cbn [tab dk]. now rewrite Ek'. }
  rewrite (filter_ext _ (fun r => same_pos (pos self r) c)) by (intros; now rewrite EP).
  rewrite (Permutation_length (Permutation_filter _ _ _ (Permutation_sym (sort_rows_perm _ tmp)))).
  rewrite L, filter_app, app_length. rewrite filter_length_ext_mapi.
  2:{ intros i x Hx. rewrite Forall_forall in F. unfold pos. rewrite acc_coords; auto. }
  fold (points_at self c). f_equal.
  assert (R : map (reord (keys (tab self)) (keys (tab obj))) (filter (miss (dk_list (dk self)) (keys (tab self)) (dk_list (dk obj)) (keys (tab obj)) (rows (tab self)) (repeat 0 (ncoords self))) (rows (tab obj)))
           = filter (miss (dk_list (dk self)) (keys (tab self)) (dk_list (dk obj)) (keys (tab obj)) (rows (tab self)) (repeat 0 (ncoords self))) (rows (tab obj))).
  { rewrite <- map_id. apply map_ext_in. intros o Ho. apply filter_In in Ho. destruct Ho as [Ho _].
    rewrite Ek. rewrite Forall_forall in F'. apply reord_id; auto. }
  rewrite R. change (length (points_at obj c)) with (length (filter (fun r => same_pos (pos obj r) c) (rows (tab obj)))).
  assert (PE : forall r, pos self r = pos obj r) by (intros; unfold pos; now rewrite Ek, Ed).
  assert (Z : forall o, In o (rows (tab obj)) -> same_pos (pos obj o) c = true ->
     miss (dk_list (dk self)) (keys (tab self)) (dk_list (dk obj)) (keys (tab obj)) (rows (tab self)) (repeat 0 (ncoords self)) o
     = Nat.eqb (length (points_at self c)) 0).
  { intros o Ho Hp. rewrite Forall_forall in F'. 
    assert (P := near_zero_part self obj o c W Ek Ed (F' o Ho) Hp).
    change (miss (dk_list (dk self)) (keys (tab self)) (dk_list (dk obj)) (keys (tab obj)) (rows (tab self)) (repeat 0 (ncoords self)) o)
      with (match partner (repeat 0 (ncoords self)) self obj o with Some _ => false | None => true end).
    destruct (partner _ self obj o); symmetry; [apply Nat.eqb_neq; lia|now apply Nat.eqb_eq]. }
  clear - Z PE. revert Z. generalize (rows (tab obj)) as os.
  induction os as [|o os IH]; intros Z; cbn [filter].
  - now destruct (Nat.eqb _ 0).
  - assert (IH' := IH (fun o' H => Z o' (or_intror H))). clear IH.
    destruct (same_pos (pos obj o) c) eqn:Ep.
    + specialize (Z o (or_introl eq_refl) Ep). rewrite Z.
      destruct (Nat.eqb _ 0); cbn [filter length]; auto. rewrite PE, Ep. cbn [length]. now rewrite IH'.
    + destruct (miss _ _ _ _ _ _ o); cbn [filter]; auto. rewrite PE, Ep. auto.
Qed.

Lemma combine_counts self obj t d' c k :
  same_layout self obj -> exact_matching t self obj -> combine_inplace self obj t = Ok d' ->
  In k (dk_list (dk self)) ->
  counts_at d' c k == counts_at self c k + counts_at obj c k.
Proof.
  intros [([N F] & [N' F'] & Ed & Hk & Nd & Hd & Hc) Ek] Ht E Hkd.
  unfold exact_matching in Ht. assert (Ht' := effective_expand _ _ _ _ Ht).
  unfold combine_inplace in E. destruct (combine_table self obj t) as [tb|] eqn:E'; [|discriminate E].
  inversion E; subst d'; clear E.
  apply combine_table_ok in E'. destruct E' as (tmp & E & Ek' & Er).
  rewrite <- Ek, <- Ed in E. rewrite <- Ek in Ht', F'.
  eapply (comb_loop_cnt t (dk_list (dk self)) (keys (tab self)) (rows (tab self)) c k) in E; auto.
  - unfold counts_at, pos. cbn [tab dk]. rewrite Er, Ek', <- Ek, <- Ed.
    fold (getq (keys (tab self))) in *.
    change (cnt (dk_list (dk self)) (keys (tab self)) c k (sort_rows (row_leb (dk_list (dk self)) (keys (tab self))) tmp) ==
      cnt (dk_list (dk self)) (keys (tab self)) c k (rows (tab self)) + cnt (dk_list (dk self)) (keys (tab self)) c k (rows (tab obj))).
    rewrite <- E. apply cnt_perm. symmetry; apply sort_rows_perm.
  - now apply mem_In.
  - eauto.
Qed.

Lemma combine_layout self obj t d' : same_layout self obj -> combine_inplace self obj t = Ok d' ->
  keys (tab d') = keys (tab self) /\ dk d' = dk self /\
  Forall (fun r => length r = length (keys (tab self))) (rows (tab d')).
Proof.
  intros [([N F] & [N' F'] & Ed & Hk & Nd & Hd & Hc) Ek] E.
  unfold combine_inplace in E. destruct (combine_table self obj t) as [tb|] eqn:E'; [|discriminate E].
  inversion E; subst d'; clear E. cbn [tab dk].
  apply combine_table_ok in E'. destruct E' as (tmp & E & Ek' & Er). split; auto. split; auto.
  rewrite Er, <- sort_rows_perm.
  eapply (comb_loop_sum _ _ _ _ _ _ (kdet (dk self))) in E; auto.
  - now destruct E.
  - apply Hd. unfold dk_list; simpl; auto.
  - apply mem_In. unfold dk_list; simpl; auto.
Qed.

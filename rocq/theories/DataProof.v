From Coq Require Import String List QArith Qabs Bool Arith Lia Permutation Sorted Setoid.
From Verif Require Import Base DataModel DataSpec.
Import ListNotations.

Fixpoint mapi {A B} (f : nat -> A -> B) (j : nat) (l : list A) : list B :=
  match l with [] => [] | x :: l' => f j x :: mapi f (S j) l' end.

Lemma mapi_length {A B} (f : nat -> A -> B) l j : length (mapi f j l) = length l.
Proof. revert j; induction l; simpl; intros; auto. Qed.

Lemma mapi_mapi {A B C} (f : nat -> B -> C) (g : nat -> A -> B) l j :
  mapi f j (mapi g j l) = mapi (fun i x => f i (g i x)) j l.
Proof. revert j; induction l; simpl; intros; f_equal; auto. Qed.

Lemma mapi_ext_in {A B} (f g : nat -> A -> B) l j :
  (forall i x, In x l -> f i x = g i x) -> mapi f j l = mapi g j l.
Proof. revert j; induction l; simpl; intros; f_equal; auto. Qed.

Lemma mapi_id {A} (f : nat -> A -> A) l j :
  (forall i x, In x l -> j <= i -> f i x = x)%nat -> mapi f j l = l.
Proof.
  revert j; induction l; simpl; intros; f_equal; auto.
  apply IHl; intros; apply H; auto; lia.
Qed.

(** ** Error-free runs *)
Lemma map_res_ok {A B} (f : A -> res B) (g : A -> B) l ys :
  (forall x y, f x = Ok y -> y = g x) -> map_res f l = Ok ys -> ys = map g l.
Proof.
  intros H; revert ys; induction l; simpl; intros ys E.
  - inversion E; auto.
  - destruct (f a) eqn:Ea; [|discriminate]. destruct (map_res f l) eqn:El; [|discriminate].
    inversion E; f_equal; auto.
Qed.

Lemma map_res_ok_in {A B} (f : A -> res B) l ys :
  map_res f l = Ok ys -> Forall2 (fun x y => f x = Ok y) l ys.
Proof.
  revert ys; induction l; simpl; intros ys E.
  - inversion E; constructor.
  - destruct (f a) eqn:Ea; [|discriminate]. destruct (map_res f l) eqn:El; [|discriminate].
    inversion E; constructor; auto.
Qed.

Lemma map_res_total {A B} (f : A -> res B) l :
  (forall x, In x l -> exists y, f x = Ok y) -> exists ys, map_res f l = Ok ys.
Proof.
  induction l; simpl; intros H; eauto.
  destruct (H a (or_introl eq_refl)) as [y Ey]. rewrite Ey.
  destruct IHl as [ys Eys]; auto. rewrite Eys; eauto.
Qed.

Lemma upd_res_ok {A} (f : A -> res A) l n l' :
  upd_res n f l = Ok l' ->
  exists l1 x y l2, l = l1 ++ x :: l2 /\ length l1 = n /\ f x = Ok y /\ l' = l1 ++ y :: l2.
Proof.
  revert n l'; induction l; simpl; intros n l' E; [discriminate|].
  destruct n.
  - destruct (f a) eqn:Ea; inversion E; subst. exists [], a, a0, l; auto.
  - destruct (upd_res n f l) eqn:El; [|discriminate]. inversion E; subst.
    apply IHl in El. destruct El as (l1 & x & y & l2 & -> & <- & Hf & ->).
    exists (a :: l1), x, y, l2; simpl; auto.
Qed.

Lemma upd_res_total {A} (f : A -> res A) l n :
  (n < length l)%nat -> (forall x, In x l -> exists y, f x = Ok y) -> exists l', upd_res n f l = Ok l'.
Proof.
  revert n; induction l; simpl; intros n Hn H; [lia|].
  destruct n.
  - destruct (H a (or_introl eq_refl)) as [y Ey]; rewrite Ey; eauto.
  - destruct (IHl n) as [l' El]; auto; [lia|]. rewrite El; eauto.
Qed.

(** ** Matching *)
Lemma within_near ts a b :
  length a = length b -> length ts = length a -> within ts a b = near ts a b.
Proof.
  unfold near; revert a b; induction ts as [|q ts IH]; intros [|x a] [|y b]; simpl; intros; try lia; auto.
  rewrite IH; auto; lia.
Qed.

Lemma expand_tols_length t nk n ts : expand_tols t nk n = Ok ts -> length ts = n.
Proof.
  unfold expand_tols; destruct t.
  - destruct (Nat.eqb_spec (length (repeat default_tol (nk - 3))) n).
    + intros E; inversion E; auto.
    + destruct (repeat default_tol (nk - 3)) as [|x [|]]; try discriminate.
      intros E; inversion E; apply repeat_length.
  - intros E; inversion E; apply repeat_length.
  - destruct (Nat.eqb_spec (length l) n).
    + intros E; inversion E; subst; auto.
    + destruct l as [|x [|]]; try discriminate. intros E; inversion E; apply repeat_length.
Qed.

Lemma close_ok t nk n ts a b r :
  expand_tols t nk n = Ok ts -> length a = n ->
  close t nk a b = Ok r -> r = near ts a b /\ length b = n.
Proof.
  unfold close; intros E Hn. destruct (Nat.eqb_spec (length a) (length b)); [|discriminate].
  rewrite Hn, E. intros F; inversion F; subst. split; auto.
  apply within_near; auto. now apply expand_tols_length in E.
Qed.

Lemma scan_ok t nk n ts new origs j0 r :
  expand_tols t nk n = Ok ts -> Forall (fun a => length a = n) origs ->
  scan t nk new origs j0 = Ok r ->
  r = option_map (fun i => j0 + i)%nat (first_index (fun a => near ts a new) origs).
Proof.
  intros E F; revert j0; induction F; simpl; intros j0 S.
  - inversion S; auto.
  - destruct (close t nk x new) eqn:Ec; [|discriminate].
    eapply close_ok in Ec; eauto. destruct Ec as [-> _].
    destruct (near ts x new).
    + inversion S; simpl; f_equal; lia.
    + apply IHF in S. subst r. destruct (first_index _ l); simpl; auto.
Qed.

Lemma first_index_map {A B} (p : B -> bool) (g : A -> B) l :
  first_index p (map g l) = first_index (fun x => p (g x)) l.
Proof. induction l; simpl; auto. destruct (p (g a)); auto. now rewrite IHl. Qed.

Lemma first_index_lt {A} (p : A -> bool) l i : first_index p l = Some i -> (i < length l)%nat.
Proof.
  revert i; induction l; simpl; intros i; [discriminate|].
  destruct (p a); [intros E; inversion E; lia|].
  destruct (first_index p l); simpl; [|discriminate]. intros E; inversion E; subst.
  specialize (IHl n eq_refl); lia.
Qed.

Lemma coords_length dks ks r :
  length r = length ks -> length (coords dks ks r) = length (filter (fun k => negb (mem k dks)) ks).
Proof.
  unfold coords. rewrite map_length. revert r; induction ks; destruct r; simpl; intros; try lia; auto.
  destruct (negb (mem a dks)); simpl; auto.
Qed.

(** ** Pure forms of the row operations *)
Definition getq (ks : list key) (o : list Q) (k : key) : Q :=
  match lookup ks o k with Some v => v | None => 0 end.
Definition addp (dk ks_s ks_o : list key) (o r : list Q) : list Q :=
  map (fun kv => if mem (fst kv) dk then snd kv + getq ks_o o (fst kv) else snd kv)
      (List.combine ks_s r).
Definition reord (ks_s ks_o : list key) (o : list Q) : list Q := map (getq ks_o o) ks_s.

Lemma add_row_ok dk ks_s ks_o o r r' :
  add_row dk ks_s ks_o o r = Ok r' -> r' = addp dk ks_s ks_o o r.
Proof.
  unfold add_row, addp. apply map_res_ok. intros [k v] y; simpl.
  unfold getq. destruct (mem k dk); [|congruence].
  destruct (lookup ks_o o k); congruence.
Qed.

Lemma append_row_ok ks_s ks_o o r' :
  append_row ks_s ks_o o = Ok r' -> r' = reord ks_s ks_o o.
Proof.
  unfold append_row, reord. apply map_res_ok. intros k y. unfold getq.
  destruct (lookup ks_o o k); congruence.
Qed.

Lemma append_row_in ks_s ks_o o r' :
  append_row ks_s ks_o o = Ok r' -> forall k, In k ks_s -> lookup ks_o o k <> None.
Proof.
  unfold append_row; intros E. apply map_res_ok_in in E. intros k Hk.
  induction E; simpl in *; [tauto|]. destruct Hk as [->|Hk]; auto.
  destruct (lookup ks_o o k); congruence.
Qed.

Lemma add_row_in dk ks_s ks_o o r r' :
  add_row dk ks_s ks_o o r = Ok r' -> length r = length ks_s ->
  forall k, In k ks_s -> mem k dk = true -> lookup ks_o o k <> None.
Proof.
  unfold add_row; intros E L k Hk Hm. apply map_res_ok_in in E.
  remember (List.combine ks_s r) as kvs eqn:Ekv. revert ks_s r Ekv L Hk.
  induction E as [|x y kvs' ys Hxy E' IHE]; intros ks_s r Ekv L Hk.
  - destruct ks_s, r; simpl in *; try discriminate; tauto.
  - destruct ks_s as [|k0 ks_s], r as [|v r]; simpl in *; try discriminate.
    inversion Ekv; subst x kvs'; clear Ekv. destruct Hk as [->|Hk].
    + simpl in Hxy. rewrite Hm in Hxy. destruct (lookup ks_o o k); congruence.
    + eapply IHE with (r := r); eauto.
Qed.

Lemma addp_length dk ks_s ks_o o r : length r = length ks_s -> length (addp dk ks_s ks_o o r) = length ks_s.
Proof. intros; unfold addp. rewrite map_length, combine_length. lia. Qed.

Lemma lookup_addp dk ks_s ks_o o r k :
  length r = length ks_s ->
  lookup ks_s (addp dk ks_s ks_o o r) k =
  match lookup ks_s r k with
  | Some v => Some (if mem k dk then v + getq ks_o o k else v)
  | None => None end.
Proof.
  unfold addp; revert r; induction ks_s; destruct r; simpl; intros; try lia; auto.
  destruct (String.eqb_spec a k); subst; auto.
Qed.

Lemma coords_addp dk ks_s ks_o o r :
  length r = length ks_s -> coords dk ks_s (addp dk ks_s ks_o o r) = coords dk ks_s r.
Proof.
  unfold coords, addp; revert r; induction ks_s; destruct r; simpl; intros; try lia; auto.
  destruct (mem a dk) eqn:Em; simpl; [apply IHks_s; lia|]. f_equal; apply IHks_s; lia.
Qed.

Lemma lookup_reord ks_s ks_o o k :
  In k ks_s -> lookup ks_s (reord ks_s ks_o o) k = Some (getq ks_o o k).
Proof.
  unfold reord. induction ks_s; simpl; [tauto|]. intros [->|H].
  - now rewrite String.eqb_refl.
  - destruct (String.eqb_spec a k); subst; auto.
Qed.

Lemma lookup_some ks r k : length r = length ks -> In k ks -> exists v, lookup ks r k = Some v.
Proof.
  revert r; induction ks; destruct r; simpl; intros; try tauto; try lia.
  destruct (String.eqb_spec a k); eauto. apply IHks; auto; destruct H0; congruence.
Qed.

Lemma lookup_in ks r k v : lookup ks r k = Some v -> In k ks.
Proof.
  revert r; induction ks; destruct r; simpl; try discriminate.
  destruct (String.eqb_spec a k); auto. intros; right; eauto.
Qed.

(** ** The loop *)
Section Loop.
  Variables (t : tolarg) (dks kss dko kso : list key) (selfrows : list (list Q)) (ts : list Q).
  Let orig := map (coords dks kss) selfrows.
  Let n := length (filter (fun k => negb (mem k dks)) kss).
  Hypothesis Hts : expand_tols t (length kso) n = Ok ts.
  Hypothesis Hself : Forall (fun r => length r = length kss) selfrows.
  Definition part (o : list Q) : option nat :=
    first_index (fun r => near ts (coords dks kss r) (coords dko kso o)) selfrows.
  Definition hit (j : nat) (o : list Q) : bool :=
    match part o with Some i => Nat.eqb i j | None => false end.
  Definition miss (o : list Q) : bool :=
    match part o with Some _ => false | None => true end.
  Definition acc (os : list (list Q)) (j : nat) (r : list Q) : list Q :=
    fold_left (fun r o => if hit j o then addp dks kss kso o r else r) os r.

  Lemma scan_part o r : scan t (length kso) (coords dko kso o) orig 0 = Ok r -> r = part o.
  Proof.
    intros E. eapply scan_ok in E; eauto.
    - rewrite E. unfold part, orig. rewrite first_index_map.
      destruct (first_index _ selfrows); auto.
    - unfold orig. rewrite Forall_map. eapply Forall_impl; [|exact Hself].
      intros; now apply coords_length.
  Qed.

  Lemma comb_loop_ok os : forall merged app out,
    length merged = length selfrows ->
    comb_loop t dks kss dko kso orig os (merged ++ app) = Ok out ->
    out = mapi (acc os) 0 merged ++ app ++ map (reord kss kso) (filter miss os).
  Proof.
    induction os as [|o os IH]; intros merged app out L E; cbn [comb_loop] in E.
    - inversion E; subst. cbn. rewrite app_nil_r. f_equal.
      symmetry; apply mapi_id; auto.
    - destruct (scan t (length kso) (coords dko kso o) orig 0) as [p|] eqn:Es; [|discriminate].
      apply scan_part in Es. cbn [filter].
      assert (Hm : miss o = match p with Some _ => false | None => true end) by (unfold miss; now rewrite <- Es).
      rewrite Hm. destruct p as [j|].
      + destruct (upd_res j _ _) eqn:Eu; [|discriminate].
        apply upd_res_ok in Eu. destruct Eu as (l1 & x & y & l2 & El & Hl1 & Hf & ->).
        apply add_row_ok in Hf.
        assert (Hj : (j < length selfrows)%nat) by (symmetry in Es; now apply first_index_lt in Es).
        assert (Hsplit : exists m2, merged = l1 ++ x :: m2 /\ l2 = m2 ++ app).
        { clear - El Hl1 Hj L. revert l1 j El Hl1 Hj. rewrite <- L. clear L.
          induction merged; simpl; intros; [lia|].
          destruct l1; simpl in *.
          - inversion El; subst. eauto.
          - inversion El; subst. destruct (IHmerged l1 (length l1) H1 eq_refl) as (m2 & -> & ->); [lia|eauto]. }
        destruct Hsplit as (m2 & -> & ->).
        assert (EQ : l1 ++ y :: m2 ++ app = (mapi (fun i r => if hit i o then addp dks kss kso o r else r) 0 (l1 ++ x :: m2)) ++ app).
        { change (l1 ++ (y :: m2) ++ app = (mapi (fun i r => if hit i o then addp dks kss kso o r else r) 0 (l1 ++ x :: m2)) ++ app).
          rewrite app_assoc. f_equal.
          assert (G : forall l1 k, (k + length l1)%nat = j ->
             mapi (fun i r => if hit i o then addp dks kss kso o r else r) k (l1 ++ x :: m2) = l1 ++ y :: m2).
          { clear - Es Hf. induction l1 as [|a l1 IH]; intros k Hk; cbn [mapi app].
            - simpl in Hk. unfold hit at 1. rewrite <- Es.
              replace (Nat.eqb j k) with true by (symmetry; apply Nat.eqb_eq; lia).
              f_equal; auto. apply mapi_id. intros i r _ Hi. unfold hit. rewrite <- Es.
              replace (Nat.eqb j i) with false; auto. symmetry; apply Nat.eqb_neq; lia.
            - f_equal; [|apply IH; simpl in Hk; lia].
              unfold hit. rewrite <- Es. replace (Nat.eqb j k) with false; auto.
              symmetry; apply Nat.eqb_neq; simpl in Hk; lia. }
          symmetry; now apply G. }
        rewrite EQ in E. apply IH in E; [|now rewrite mapi_length].
        rewrite mapi_mapi in E. exact E.
      + destruct (append_row kss kso o) as [r|] eqn:Ea; [|discriminate].
        apply append_row_ok in Ea. subst r. rewrite <- app_assoc in E.
        apply IH in E; auto. rewrite E. cbn [map]. rewrite <- app_assoc. f_equal.
        apply mapi_ext_in. intros i x _. unfold acc. cbn [fold_left].
        replace (hit i o) with false; auto. unfold hit; now rewrite <- Es.
  Qed.

  (** every looked-up value was present *)
  Lemma comb_loop_present os : forall tmp out,
    Forall (fun r => length r = length kss) tmp ->
    comb_loop t dks kss dko kso orig os tmp = Ok out ->
    Forall (fun o => (forall k, In k kss -> mem k dks = true -> lookup kso o k <> None) /\
                     (miss o = true -> forall k, In k kss -> lookup kso o k <> None)) os.
  Proof.
    induction os as [|o os IH]; intros tmp out F E; cbn [comb_loop] in E; constructor.
    - destruct (scan t (length kso) (coords dko kso o) orig 0) as [p|] eqn:Es; [|discriminate].
      apply scan_part in Es. destruct p as [j|].
      + destruct (upd_res j _ _) eqn:Eu; [|discriminate].
        apply upd_res_ok in Eu. destruct Eu as (l1 & x & y & l2 & El & Hl1 & Hf & ->).
        split.
        * eapply add_row_in; eauto. subst tmp. rewrite Forall_app in F. destruct F as [_ F].
          now inversion F.
        * unfold miss; rewrite <- Es; discriminate.
      + destruct (append_row kss kso o) as [r|] eqn:Ea; [|discriminate].
        assert (P := append_row_in _ _ _ _ Ea). split; auto.
    - destruct (scan t (length kso) (coords dko kso o) orig 0) as [p|] eqn:Es; [|discriminate].
      destruct p as [j|].
      + destruct (upd_res j _ _) eqn:Eu; [|discriminate].
        eapply IH; [|exact E]. apply upd_res_ok in Eu.
        destruct Eu as (l1 & x & y & l2 & -> & Hl1 & Hf & ->).
        apply add_row_ok in Hf. subst y. rewrite Forall_app in *. destruct F as [F1 F2].
        inversion F2; subst. split; auto. constructor; auto. now apply addp_length.
      + destruct (append_row kss kso o) as [r|] eqn:Ea; [|discriminate].
        eapply IH; [|exact E]. apply append_row_ok in Ea. subst r.
        rewrite Forall_app; split; auto. constructor; auto. unfold reord; apply map_length.
  Qed.

  Lemma acc_length os j r : length r = length kss -> length (acc os j r) = length kss.
  Proof.
    unfold acc; revert r; induction os; simpl; intros; auto.
    apply IHos. destruct (hit j a); auto. now apply addp_length.
  Qed.

  Lemma acc_lookup os j : forall r k v, length r = length kss -> lookup kss r k = Some v ->
    exists v', lookup kss (acc os j r) k = Some v' /\
      if mem k dks then v' == v + Qsum (map (fun o => getq kso o k) (filter (hit j) os)) else v' = v.
  Proof.
    unfold acc; induction os as [|o os IH]; intros r k v L E.
    - cbn. exists v; split; auto. destruct (mem k dks); auto. ring.
    - cbn [fold_left filter]. destruct (hit j o).
      + destruct (IH (addp dks kss kso o r) k (if mem k dks then v + getq kso o k else v)) as (v' & E' & H).
        * now apply addp_length.
        * rewrite lookup_addp; auto. now rewrite E.
        * exists v'; split; auto. destruct (mem k dks); auto. cbn [map Qsum fold_right].
          rewrite H. unfold Qsum. ring.
      + apply IH; auto.
  Qed.

  Lemma acc_coords os j : forall r, length r = length kss -> coords dks kss (acc os j r) = coords dks kss r.
  Proof.
    unfold acc; induction os as [|o os IH]; intros r L; auto. cbn [fold_left]. destruct (hit j o); auto.
    rewrite IH; [now apply coords_addp|now apply addp_length].
  Qed.
End Loop.

(** ** Sorting *)
Lemma insert_row_perm le x l : Permutation (x :: l) (insert_row le x l).
Proof.
  induction l; simpl; auto. destruct (le x a); auto.
  rewrite perm_swap. now constructor.
Qed.
Lemma sort_rows_perm le l : Permutation l (sort_rows le l).
Proof.
  induction l; simpl; auto. rewrite <- insert_row_perm. now constructor.
Qed.

Lemma insert_sorted (P : list Q -> Prop) le x l :
  (forall a b, le a b = true \/ le b a = true) ->
  (forall a b c, P a -> P b -> P c -> le a b = true -> le b c = true -> le a c = true) ->
  P x -> Forall P l ->
  StronglySorted (fun a b => le a b = true) l ->
  StronglySorted (fun a b => le a b = true) (insert_row le x l).
Proof.
  intros Tot Tr Px F S; induction S; simpl; [repeat constructor|].
  inversion F; subst. destruct (le x a) eqn:E.
  - constructor; [constructor; auto|]. constructor; auto.
    rewrite Forall_forall in *. intros z Hz. eapply Tr; eauto.
  - constructor; auto. rewrite <- (insert_row_perm le x l). constructor; auto.
    destruct (Tot x a); congruence.
Qed.
Lemma sort_sorted (P : list Q -> Prop) le l :
  (forall a b, le a b = true \/ le b a = true) ->
  (forall a b c, P a -> P b -> P c -> le a b = true -> le b c = true -> le a c = true) ->
  Forall P l ->
  StronglySorted (fun a b => le a b = true) (sort_rows le l).
Proof.
  intros T R F; induction F; simpl; [constructor|].
  eapply insert_sorted; eauto. now rewrite <- sort_rows_perm.
Qed.

Lemma Qle_bool_total x y : Qle_bool x y = true \/ Qle_bool y x = true.
Proof. rewrite !Qle_bool_iff. destruct (Qlt_le_dec x y); auto. left; now apply Qlt_le_weak. Qed.

Lemma lex_leb_total a b : lex_leb a b = true \/ lex_leb b a = true.
Proof.
  revert b; induction a; destruct b; simpl; auto.
  rewrite (Qeq_bool_comm q a). destruct (Qeq_bool a q) eqn:E; auto.
  apply Qle_bool_total.
Qed.

Lemma lex_leb_spec a b : length a = length b -> lex_leb a b = true -> lex_le a b.
Proof.
  revert b; induction a; destruct b; simpl; intros L E; try lia; [constructor|].
  destruct (Qeq_bool a q) eqn:Eq.
  - apply lex_eq; [now apply Qeq_bool_iff|]. apply IHa; auto.
  - apply lex_lt; auto. apply Qle_bool_iff in E. apply Qle_lteq in E. destruct E; auto.
    apply Qeq_bool_iff in H; congruence.
Qed.

Lemma lex_leb_trans a b c : length a = length b -> length b = length c ->
  lex_leb a b = true -> lex_leb b c = true -> lex_leb a c = true.
Proof.
  revert b c; induction a as [|x a IH]; destruct b as [|y b], c as [|z c]; simpl; intros L1 L2 H1 H2; try lia; auto.
  destruct (Qeq_bool x y) eqn:E1, (Qeq_bool y z) eqn:E2.
  - apply Qeq_bool_iff in E1. apply Qeq_bool_iff in E2.
    replace (Qeq_bool x z) with true; [apply (IH b c); auto|].
    symmetry; apply Qeq_bool_iff. now rewrite E1.
  - apply Qeq_bool_iff in E1. apply Qeq_bool_neq in E2.
    destruct (Qeq_bool x z) eqn:E3.
    + apply Qeq_bool_iff in E3. elim E2. now rewrite <- E1.
    + apply Qle_bool_iff. apply Qle_bool_iff in H2. now rewrite E1.
  - apply Qeq_bool_iff in E2. apply Qeq_bool_neq in E1.
    destruct (Qeq_bool x z) eqn:E3.
    + apply Qeq_bool_iff in E3. elim E1. now rewrite E2.
    + apply Qle_bool_iff. apply Qle_bool_iff in H1. now rewrite <- E2.
  - apply Qeq_bool_neq in E1. apply Qeq_bool_neq in E2.
    apply Qle_bool_iff in H1. apply Qle_bool_iff in H2.
    destruct (Qeq_bool x z) eqn:E3.
    + apply Qeq_bool_iff in E3. elim E1. apply Qle_antisym; auto. now rewrite E3.
    + apply Qle_bool_iff. now apply Qle_trans with y.
Qed.

(** Properties of the collection of scans (C16). *)
From Coq Require Import String List Bool Arith Lia.
From Verif Require Import Base ScansModel.
Import ListNotations.
Local Open Scope string_scope.

(** The scan supplied most recently for [k]. *)
Fixpoint latest {S} (hist : list (odict S)) (k : string) : option S :=
  match hist with
  | [] => None
  | d :: hist' => match latest hist' k with Some v => Some v | None => oget d k end
  end.
(** Each key once, in order of first appearance. *)
Fixpoint first_seen (l : list string) : list string :=
  match l with [] => [] | k :: l' => k :: filter (fun x => negb (String.eqb x k)) (first_seen l') end.

Lemma oget_oset {S} (d : odict S) k v k' : oget (oset d k v) k' = if String.eqb k k' then Some v else oget d k'.
Proof.
  induction d as [|[a b] d IH]; simpl; [destruct (String.eqb k k'); auto|].
  destruct (String.eqb_spec a k); simpl.
  - subst. destruct (String.eqb k k'); auto.
  - destruct (String.eqb_spec a k'); [|auto]. subst. destruct (String.eqb_spec k k'); [congruence|auto].
Qed.
Lemma oget_none {S} (d : odict S) k : oget d k = None <-> ~ In k (map fst d).
Proof.
  induction d as [|[a b] d IH]; simpl; [tauto|]. destruct (String.eqb_spec a k).
  - split; [discriminate|]. intros H. exfalso. auto.
  - rewrite IH. tauto.
Qed.
Lemma oget_oupdate {S} (d' d : odict S) k : NoDup (map fst d') ->
  oget (oupdate d d') k = match oget d' k with Some v => Some v | None => oget d k end.
Proof.
  unfold oupdate. revert d. induction d' as [|[a b] d' IH]; intros d N; simpl; auto.
  inversion N; subst. rewrite IH by auto. rewrite oget_oset.
  destruct (oget d' k) eqn:E.
  - destruct (String.eqb_spec a k); auto. subst. exfalso.
    assert (oget d' k = None) by (now apply oget_none). congruence.
  - destruct (String.eqb a k); reflexivity.
Qed.
Lemma oset_keys {S} (d : odict S) k v : map fst (oset d k v) =
  if existsb (String.eqb k) (map fst d) then map fst d else (map fst d ++ [k])%list.
Proof.
  induction d as [|[a b] d IH]; simpl; auto. rewrite (String.eqb_sym k a).
  destruct (String.eqb_spec a k); simpl; auto. rewrite IH. destruct (existsb _ _); auto.
Qed.
Lemma filter_comm {A} (p q : A -> bool) l : filter p (filter q l) = filter q (filter p l).
Proof. induction l; simpl; auto. destruct (p a) eqn:P, (q a) eqn:Q; simpl; rewrite ?P, ?Q, ?IHl; auto. Qed.
Lemma filter_idem {A} (p : A -> bool) l : filter p (filter p l) = filter p l.
Proof. induction l; simpl; auto. destruct (p a) eqn:P; simpl; rewrite ?P, ?IHl; auto. Qed.
Lemma first_seen_snoc l k : first_seen (l ++ [k]) =
  if existsb (String.eqb k) l then first_seen l else (first_seen l ++ [k])%list.
Proof.
  induction l as [|a l IH]; simpl; auto. rewrite IH. destruct (String.eqb_spec k a); simpl.
  - subst. destruct (existsb (String.eqb a) l); auto.
    rewrite filter_app. simpl. rewrite String.eqb_refl. simpl. now rewrite app_nil_r.
  - destruct (existsb (String.eqb k) l); auto. rewrite filter_app. simpl.
    destruct (String.eqb_spec k a); [tauto|]. reflexivity.
Qed.
Lemma first_seen_in l k : In k (first_seen l) <-> In k l.
Proof.
  induction l; simpl; [tauto|]. rewrite filter_In, IHl. split; [tauto|].
  intros [->|H]; auto. destruct (String.eqb_spec k a); [subst; auto|]. right. auto.
Qed.
Lemma first_seen_nodup l : NoDup l -> first_seen l = l.
Proof.
  induction 1 as [|x l H N IH]; simpl; auto. f_equal. rewrite IH. clear - H. induction l; simpl; auto.
  simpl in H. destruct (String.eqb_spec a x); [tauto|]. simpl. f_equal. tauto.
Qed.
Lemma existsb_first_seen k l : existsb (String.eqb k) (first_seen l) = existsb (String.eqb k) l.
Proof.
  apply eq_true_iff_eq. rewrite !existsb_exists. split; intros (x & H & E); exists x; split; auto; now apply first_seen_in.
Qed.
Lemma oupdate_keys {S} (d' d : odict S) l : map fst d = first_seen l -> map fst (oupdate d d') = first_seen (l ++ map fst d').
Proof.
  unfold oupdate. revert d l. induction d' as [|[a b] d' IH]; intros d l H; simpl; [now rewrite app_nil_r|].
  replace (l ++ a :: map fst d')%list with ((l ++ [a]) ++ map fst d')%list by (now rewrite <- app_assoc).
  apply IH. rewrite oset_keys, H, first_seen_snoc, existsb_first_seen. reflexivity.
Qed.

Lemma last_cons_default {A} (l : list A) : forall x n, last (x :: l) n = last l x.
Proof. induction l as [|y l IH]; intros x n; auto. change (last (y :: l) n = last (y :: l) x). now rewrite !IH. Qed.

Lemma run_updates_spec {S} us : forall (d : odict S) l (g : string -> option S) n,
  Forall (fun u => NoDup (map fst u)) us -> map fst d = first_seen l -> (forall k, oget d k = g k) ->
  exists d' m, run_updates (mkScans (Some d) (Some n)) us = Ok (mkScans (Some d') (Some m)) /\
    map fst d' = first_seen (l ++ List.concat (map (map fst) us)) /\
    (forall k, oget d' k = match latest us k with Some v => Some v | None => g k end) /\
    m = last (map (@List.length _) us) n.
Proof.
  unfold run_updates. induction us as [|u us IH]; intros d l g n F H G.
  - exists d, n. simpl. rewrite app_nil_r. auto.
  - inversion F; subst. cbn [fold_left scans_update sc].
    destruct (IH (oupdate d u) (l ++ map fst u)%list (fun k => match oget u k with Some v => Some v | None => g k end) (List.length u))
      as (d' & m & E & K & L & M); auto.
    + now apply oupdate_keys.
    + intros k. rewrite oget_oupdate by auto. now rewrite G.
    + exists d', m. split; auto. split; [|split].
      * rewrite K. simpl. now rewrite <- app_assoc.
      * intros k. rewrite L. simpl. destruct (latest us k); auto.
      * rewrite M. cbn [map]. now rewrite last_cons_default.
Qed.

(** C16.  After any history the collection holds the latest scan of every key ever supplied, in
    order of first insertion. *)
Theorem C16_history : forall S (d : odict S) us s0,
  NoDup (map fst d) -> Forall (fun u => NoDup (map fst u)) us -> scans_init (ODict d) = Ok s0 ->
  exists d' m, run_updates s0 us = Ok (mkScans (Some d') (Some m)) /\
    map fst d' = first_seen (List.concat (map (map fst) (d :: us))) /\
    (forall k, oget d' k = latest (d :: us) k) /\
    m = last (map (@List.length _) (d :: us)) 0.
Proof.
  intros S d us s0 N F E. inversion E; subst s0.
  destruct (run_updates_spec us d (map fst d) (oget d) (List.length d) F) as (d' & m & A & B & C & D); auto.
  - symmetry. now apply first_seen_nodup.
  - exists d', m. split; auto. split; auto. split; auto.
    rewrite D. cbn [map]. now rewrite last_cons_default.
Qed.
Print Assumptions C16_history.

Lemma fill_spec {S V} (f : S -> res V) l : forall n, (forall k s, In (k, s) l -> exists v, f s = Ok v) ->
  match fill f n l with
  | Ok vs => (List.length l <= n)%nat /\ Forall2 (fun ks v => f (snd ks) = Ok v) l vs
  | Err e => (n < List.length l)%nat /\ e = IndexError
  end.
Proof.
  induction l as [|[k s] l IH]; intros n H; simpl; [split; [lia|constructor]|].
  destruct (H k s (or_introl eq_refl)) as [v Ev]. rewrite Ev. destruct n as [|n]; [split; [lia|auto]|].
  specialize (IH n (fun k s Hs => H k s (or_intror Hs))). destruct (fill f n l).
  - destruct IH. split; [lia|]. constructor; auto.
  - destruct IH. split; [lia|auto].
Qed.

(** C16.  Per-scan summaries: complete and without spare entries exactly if the last update
    supplied as many scans as the collection holds; IndexError otherwise. *)
Theorem C16_summaries : forall S V (f : S -> res V) (d : odict S) us s0 s,
  NoDup (map fst d) -> Forall (fun u => NoDup (map fst u)) us -> scans_init (ODict d) = Ok s0 ->
  run_updates s0 us = Ok s ->
  (forall u k x, In u (d :: us) -> In (k, x) u -> exists v, f x = Ok v) ->
  exists d', sc s = Some d' /\
    match func_col f s with
    | Ok (vs, spare) => last (map (@List.length _) (d :: us)) 0 = List.length d' /\ spare = 0 /\
                        Forall2 (fun ks v => f (snd ks) = Ok v) d' vs
    | Err e => e = IndexError /\ (last (map (@List.length _) (d :: us)) 0 < List.length d')%nat
    end.
Proof.
  intros S V f d us s0 s N F E R T.
  destruct (C16_history S d us s0 N F E) as (d' & m & A & B & C & D). rewrite A in R. inversion R; subst s.
  exists d'. split; auto. unfold func_col. cbn [sc num].
  assert (G : forall k x, In (k, x) d' -> exists v, f x = Ok v).
  { intros k x H. assert (Hx : oget d' k = Some x).
    { assert (Nd : NoDup (map fst d')).
      { rewrite B. clear. generalize (List.concat (map (map fst) (d :: us))). intros l. induction l; simpl; constructor.
        - rewrite filter_In. rewrite String.eqb_refl. simpl. intros []. discriminate.
        - now apply NoDup_filter. }
      clear - H Nd. induction d' as [|[a b] d' IH]; simpl in *; [tauto|]. inversion Nd; subst.
      destruct H as [H|H]; [inversion H; now rewrite String.eqb_refl|].
      destruct (String.eqb_spec a k); auto. subst. exfalso. apply H2. change k with (fst (k, x)). now apply in_map. }
    rewrite C in Hx. assert (L : forall hist, latest hist k = Some x -> exists u, In u hist /\ In (k, x) u).
    { clear. induction hist as [|u hist IH]; simpl; [discriminate|]. destruct (latest hist k) eqn:Q.
      - intros E; inversion E; subst. destruct (IH eq_refl) as (w & ? & ?). exists w. auto.
      - intros H. exists u. split; auto. clear - H. induction u as [|[a b] u IH]; simpl in *; [discriminate|].
        destruct (String.eqb_spec a k); [inversion H; subst; auto|auto]. }
    destruct (L _ Hx) as (u & Hu & Hk). eapply T; eauto. }
  assert (Len : (m <= List.length d')%nat).
  { rewrite D. assert (Q : forall u, In u (d :: us) -> (List.length u <= List.length d')%nat).
    { intros u Hu. rewrite <- (map_length fst u), <- (map_length fst d'). apply NoDup_incl_length.
      - destruct Hu as [<-|Hu]; auto. rewrite Forall_forall in F. auto.
      - intros k Hk. rewrite B. apply first_seen_in. apply in_concat. exists (map fst u). split; auto. now apply in_map. }
    assert (I : exists u, In u (d :: us) /\ last (map (@List.length _) (d :: us)) 0 = List.length u).
    { clear. revert d. induction us as [|u us IH]; intros d; [exists d; simpl; auto|].
      destruct (IH u) as (w & Hw & Ew). exists w. split; [now right|]. simpl in *. exact Ew. }
    destruct I as (u & Hu & ->). auto. }
  assert (Z := fill_spec f d' m G). destruct (fill f m d').
  - destruct Z as [Z1 Z2]. split; [lia|]. split; [lia|auto].
  - destruct Z as [Z1 ->]. split; auto. lia.
Qed.
Print Assumptions C16_summaries.
Example C16_ex : exists s0 s, scans_init (ODict [("1", 5); ("2", 6)]) = Ok s0 /\
  run_updates s0 [[("3", 7)]; [("2", 8); ("1", 9); ("3", 7)]] = Ok s /\
  sc s = Some [("1", 9); ("2", 8); ("3", 7)] /\ func_col (fun x => Ok x) s = Ok ([9; 8; 7], 0).
Proof. do 2 eexists. repeat (split; [reflexivity|]). reflexivity. Qed.

(** C16.  Adding one scan to a collection of two breaks every summary. *)
Theorem C16_summaries_after_update_refuted : exists (d u : odict nat) s0 s,
  NoDup (map fst d) /\ NoDup (map fst u) /\ scans_init (ODict d) = Ok s0 /\ run_updates s0 [u] = Ok s /\
  func_col (fun x => Ok x) s = Err IndexError.
Proof.
  exists [("1", 5); ("2", 6)], [("3", 7)]. do 2 eexists.
  split; [repeat constructor; simpl; intuition discriminate|]. split; [repeat constructor; simpl; intuition discriminate|].
  repeat (split; [reflexivity|]). reflexivity.
Qed.
Print Assumptions C16_summaries_after_update_refuted.

(** C16.  A collection created without scans can never be filled by update. *)
Theorem C16_empty_collection_unusable : forall S (s0 : scans S) us,
  scans_init NoDict = Ok s0 -> us <> [] -> run_updates s0 us = Err AttributeError.
Proof.
  intros S s0 us E H. inversion E; subst. destruct us as [|u us]; [tauto|].
  unfold run_updates. simpl. clear. induction us; simpl; auto.
Qed.
Print Assumptions C16_empty_collection_unusable.
Example C16_empty_ex : exists s0 : scans nat, scans_init NoDict = Ok s0 /\ [[("1", 5)]] <> [].
Proof. eexists; split; [reflexivity|discriminate]. Qed.

(** C16.  What the constructor and update accept. *)
Theorem C16_argument_types : forall S (a : sarg S) (s : scans S),
  (scans_init a = Err RuntimeError <-> a = OtherDict) /\
  (forall d, sc s = Some d -> (exists s', scans_update s a = Ok s') <-> exists u, a = ODict u) /\
  (forall d, a = ODict d -> exists s', scans_init a = Ok s' /\ sc s' = Some d /\ num s' = Some (List.length d)).
Proof.
  intros S a s. split; [|split].
  - destruct a; simpl; split; congruence.
  - intros d E. destruct a; simpl; rewrite ?E; split; intros [x H]; try discriminate; eauto.
  - intros d ->. simpl. eauto.
Qed.
Print Assumptions C16_argument_types.
Example C16_types_ex : exists s' : scans nat, scans_init (ODict [("1", 5)]) = Ok s'.
Proof. eexists; reflexivity. Qed.

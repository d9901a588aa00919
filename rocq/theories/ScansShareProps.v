(** C98: collections of scans share the dictionaries they are made of.  C99: waterfall plots. *)
From Coq Require Import String List Bool Arith ZArith Reals Lia Lra.
From Verif Require Import Base ScansModel ScansProps PcolorModel DescribeModel ScansShareModel.
From Verif Require DescribeProps.
Import ListNotations.
Local Open Scope list_scope.

(** * What a history says, newest action first *)
Section Says.
Context {S : Type}.
(** How many dictionaries were made; which dictionary collection [o] was made of; how many collections. *)
Fixpoint made (h : list (action S)) : nat := match h with [] => 0 | NewDict _ :: h => Datatypes.S (made h) | _ :: h => made h end.
Fixpoint built (h : list (action S)) : nat := match h with [] => 0 | Build _ :: h => Datatypes.S (built h) | _ :: h => built h end.
Fixpoint basis (h : list (action S)) (o : nat) : option nat :=
  match h with [] => None | Build l :: h => if Nat.eqb o (built h) then l else basis h o | _ :: h => basis h o end.
(** The scan under number [k] in dictionary [l]: the last one put there by the program, or by an update of any collection made of it. *)
Fixpoint value (h : list (action S)) (l : nat) (k : string) : option S :=
  match h with
  | [] => None
  | NewDict d :: h => if Nat.eqb l (made h) then oget d k else value h l k
  | Build _ :: h => value h l k
  | Update o m :: h => match basis h o with
                       | Some b => if Nat.eqb b l then match value h m k with Some v => Some v | None => value h l k end else value h l k
                       | None => value h l k
                       end
  | Put m j v :: h => if Nat.eqb m l && String.eqb j k then Some v else value h l k
  end.
(** Programs: what is named has been made; dictionaries have every number once. *)
Fixpoint program (h : list (action S)) : Prop :=
  match h with
  | [] => True
  | NewDict d :: h => NoDup (map fst d) /\ program h
  | Build (Some l) :: h => (l < made h)%nat /\ program h
  | Build None :: h => program h
  | Update o m :: h => (o < built h)%nat /\ (m < made h)%nat /\ program h
  | Put m _ _ :: h => (m < made h)%nat /\ program h
  end.
End Says.

Lemma replace_length {A} (l : list A) : forall i x, List.length (replace l i x) = List.length l.
Proof. induction l as [|y l IH]; intros [|i] x; cbn; auto. Qed.
Lemma replace_nth {A} (l : list A) : forall i x j d, nth j (replace l i x) d = if Nat.eqb j i && Nat.ltb i (List.length l) then x else nth j l d.
Proof.
  induction l as [|y l IH]; intros i x j d; [rewrite andb_false_r; destruct i; reflexivity|]. destruct i as [|i], j as [|j]; cbn [replace nth]; try reflexivity. rewrite IH. reflexivity.
Qed.
Lemma replace_nth_error {A} (l : list A) : forall i x j, nth_error (replace l i x) j = if Nat.eqb j i && Nat.ltb i (List.length l) then Some x else nth_error l j.
Proof.
  induction l as [|y l IH]; intros i x j; [rewrite andb_false_r; destruct i; reflexivity|]. destruct i as [|i], j as [|j]; cbn [replace nth_error]; try reflexivity. rewrite IH. reflexivity.
Qed.
Lemma oset_nodup {S} (d : odict S) k v : NoDup (map fst d) -> NoDup (map fst (oset d k v)).
Proof.
  intros N. rewrite oset_keys. destruct (existsb (String.eqb k) (map fst d)) eqn:E; [exact N|].
  assert (I : ~ In k (map fst d)). { intros I. assert (existsb (String.eqb k) (map fst d) = true) by (apply existsb_exists; exists k; split; [exact I|apply String.eqb_refl]). congruence. }
  clear E. induction (map fst d) as [|a l IH]; cbn; [repeat constructor; intros []|]. inversion N; subst. constructor; [rewrite in_app_iff; cbn in *; intuition congruence|apply IH; [assumption|cbn in I; tauto]].
Qed.
Lemma oupdate_nodup {S} (u d : odict S) : NoDup (map fst d) -> NoDup (map fst (oupdate d u)).
Proof. unfold oupdate. revert d. induction u as [|[k v] u IH]; intros d N; [exact N|]. cbn [fold_left fst snd]. apply IH, oset_nodup, N. Qed.
Lemma oset_grows {S} (d : odict S) k v : exists more, map fst (oset d k v) = map fst d ++ more.
Proof. rewrite oset_keys. destruct (existsb _ _); [exists []; rewrite app_nil_r; reflexivity|exists [k]; reflexivity]. Qed.
Lemma oupdate_grows {S} (u d : odict S) : exists more, map fst (oupdate d u) = map fst d ++ more.
Proof.
  unfold oupdate. revert d. induction u as [|[k v] u IH]; intros d; [exists []; rewrite app_nil_r; reflexivity|]. cbn [fold_left fst snd].
  destruct (IH (oset d k v)) as [m E]. destruct (oset_grows d k v) as [m' E']. exists (m' ++ m). rewrite E, E', app_assoc. reflexivity.
Qed.

Lemma run_snoc {S} (h : list (action S)) a : run (h ++ [a]) = step (run h) a.
Proof. unfold run. rewrite fold_left_app. reflexivity. Qed.
Lemma run_says {S} (h : list (action S)) : program h -> let s := run (rev h) in
  List.length (dicts s) = made h /\ List.length (colls s) = built h /\ (forall l, NoDup (map fst (dict_at s l))) /\
  (forall o, (o < built h)%nat -> exists n, nth_error (colls s) o = Some (basis h o, n)) /\ (forall o b, basis h o = Some b -> (b < made h)%nat) /\
  forall l k, (l < made h)%nat -> oget (dict_at s l) k = value h l k.
Proof.
  induction h as [|a h IH]; intros P s; unfold s; clear s.
  - repeat split; try (intros; cbn in *; lia || discriminate). intros l. unfold dict_at. destruct l; constructor.
  - cbn [rev]. rewrite run_snoc.
    assert (P' : program h) by (destruct a as [d|[l|]|o m|m k v]; cbn in P; tauto). specialize (IH P'). cbv zeta in IH. destruct IH as (Ld & Lc & Nd & Hc & Hb & Hv). set (s := run (rev h)) in *.
    destruct a as [d|[b|]|o m|m j v]; cbn [step made built basis value program] in *.
    + destruct P as [Nn _]. unfold dict_at in *. cbn [dicts colls]. split; [rewrite app_length; cbn; lia|]. split; [exact Lc|]. split.
      { intros l. destruct (Nat.lt_ge_cases l (List.length (dicts s))) as [L|L]; [rewrite app_nth1 by exact L; apply Nd|]. rewrite app_nth2 by exact L. destruct (l - List.length (dicts s))%nat as [|[|]]; cbn; auto; constructor. }
      split; [exact Hc|]. split; [intros o b Eb; specialize (Hb o b Eb); lia|]. intros l k L. destruct (Nat.eqb_spec l (made h)) as [->|Nl]; [rewrite app_nth2, Ld, Nat.sub_diag by lia; reflexivity|]. rewrite app_nth1 by lia. apply Hv. lia.
    + destruct P as [Lb _]. assert (Lt : Nat.ltb b (List.length (dicts s)) = true) by (apply Nat.ltb_lt; lia). rewrite Lt. cbn [dicts colls]. unfold dict_at in *. cbn [dicts]. split; [exact Ld|]. split; [rewrite app_length; cbn; lia|]. split; [exact Nd|]. split; [|split].
      * intros o Lo. destruct (Nat.eqb_spec o (built h)) as [->|No]; [rewrite nth_error_app2, Lc, Nat.sub_diag by lia; eexists; reflexivity|]. rewrite nth_error_app1 by lia. apply Hc. lia.
      * intros o b0. destruct (Nat.eqb o (built h)); [intros E; injection E as <-; exact Lb|apply Hb].
      * exact Hv.
    + cbn [dicts colls]. unfold dict_at in *. cbn [dicts]. split; [exact Ld|]. split; [rewrite app_length; cbn; lia|]. split; [exact Nd|]. split; [|split].
      * intros o Lo. destruct (Nat.eqb_spec o (built h)) as [->|No]; [rewrite nth_error_app2, Lc, Nat.sub_diag by lia; eexists; reflexivity|]. rewrite nth_error_app1 by lia. apply Hc. lia.
      * intros o b0. destruct (Nat.eqb o (built h)); [discriminate|apply Hb].
      * exact Hv.
    + destruct P as (Lo & Lm & _). destruct (Hc o Lo) as [n En]. rewrite En. destruct (basis h o) as [b|] eqn:Eb.
      * assert (Lt : Nat.ltb m (List.length (dicts s)) = true) by (apply Nat.ltb_lt; lia). rewrite Lt. unfold dict_at in *. cbn [dicts colls]. split; [rewrite replace_length; exact Ld|]. split; [rewrite replace_length; exact Lc|]. split; [|split; [|split; [exact Hb|]]].
        -- intros l. rewrite replace_nth. destruct (Nat.eqb l b && Nat.ltb b (List.length (dicts s))); [apply oupdate_nodup; apply Nd|apply Nd].
        -- intros o' Lo'. rewrite replace_nth_error. destruct (Nat.eqb_spec o' o) as [->|No]; cbn [andb]; [|apply Hc, Lo']. rewrite (proj2 (Nat.ltb_lt o _)) by lia. rewrite Eb. eexists; reflexivity.
        -- intros l k L. rewrite replace_nth. specialize (Hb o b Eb). rewrite (proj2 (Nat.ltb_lt b _)) by lia. rewrite andb_true_r, (Nat.eqb_sym b l). destruct (Nat.eqb_spec l b) as [->|Nl]; [|apply Hv, L]. rewrite oget_oupdate by apply Nd. rewrite !Hv by assumption. reflexivity.
      * split; [exact Ld|]. split; [exact Lc|]. repeat (split; [assumption|]). exact Hv.
    + destruct P as (Lm & _). assert (Lt : Nat.ltb m (List.length (dicts s)) = true) by (apply Nat.ltb_lt; lia). rewrite Lt. unfold dict_at in *. cbn [dicts colls]. split; [rewrite replace_length; exact Ld|]. split; [exact Lc|]. split; [|split; [exact Hc|split; [exact Hb|]]].
      * intros l. rewrite replace_nth. destruct (Nat.eqb l m && _); [apply oset_nodup; apply Nd|apply Nd].
      * intros l k L. rewrite replace_nth, Lt, andb_true_r, (Nat.eqb_sym m l). destruct (Nat.eqb_spec l m) as [->|Nl]; cbn [andb]; [rewrite oget_oset, Hv by exact L; reflexivity|apply Hv, L].
Qed.

(** C98.  In every program, a dictionary holds under every number the scan last put there by the program itself or by an update of any
    collection made of that dictionary; a collection shows the dictionary it was made of. *)
Theorem C98_shared : forall S (h : list (action S)), program h -> let s := run (rev h) in
  (forall l k, (l < made h)%nat -> oget (dict_at s l) k = value h l k) /\
  (forall o, (o < built h)%nat -> exists n, nth_error (colls s) o = Some (basis h o, n)).
Proof. intros S h P s. destruct (run_says h P) as (_ & _ & _ & Hc & _ & Hv). split; assumption. Qed.
Print Assumptions C98_shared.
(** The entries keep their places: whatever the program does next, it only adds entries at the end. *)
Lemma step_grows {S} (s : state S) a l : (l < List.length (dicts s))%nat -> (l < List.length (dicts (step s a)))%nat /\ exists more, map fst (dict_at (step s a) l) = map fst (dict_at s l) ++ more.
Proof.
  intros L. assert (Same : exists more, map fst (dict_at s l) = map fst (dict_at s l) ++ more) by (exists []; rewrite app_nil_r; reflexivity).
  destruct a as [d|[b|]|o m|m j v]; cbn [step].
  - cbn [dicts]. split; [rewrite app_length; lia|]. unfold dict_at. cbn [dicts]. rewrite app_nth1 by exact L. exact Same.
  - destruct (Nat.ltb b _); split; [exact L|exact Same|exact L|exact Same].
  - split; [exact L|exact Same].
  - destruct (nth_error (colls s) o) as [[[b|] n]|]; [|split; [exact L|exact Same]..]. destruct (Nat.ltb m (List.length (dicts s))); [|split; [exact L|exact Same]].
    unfold dict_at. cbn [dicts]. rewrite replace_length. split; [exact L|]. rewrite replace_nth. destruct (Nat.eqb_spec l b) as [->|]; cbn [andb]; [|exact Same]. destruct (Nat.ltb b _); [apply oupdate_grows|exact Same].
  - destruct (Nat.ltb m (List.length (dicts s))) eqn:E; [|split; [exact L|exact Same]]. unfold dict_at. cbn [dicts]. rewrite replace_length. split; [exact L|]. rewrite replace_nth, E, andb_true_r. destruct (Nat.eqb_spec l m) as [->|]; [apply oset_grows|exact Same].
Qed.
Theorem C98_order : forall S (h next : list (action S)) l, (l < List.length (dicts (run h)))%nat -> exists more, map fst (dict_at (run (h ++ next)) l) = map fst (dict_at (run h) l) ++ more.
Proof.
  intros S h next l L. induction next as [|a next IH] using rev_ind; [exists []; rewrite !app_nil_r; reflexivity|].
  assert (G : (l < List.length (dicts (run (h ++ next))))%nat). { clear IH. induction next as [|b next IH] using rev_ind; [rewrite app_nil_r; exact L|]. rewrite app_assoc, run_snoc. apply step_grows, IH. }
  rewrite app_assoc, run_snoc. destruct IH as [more E]. destruct (step_grows _ a l G) as [_ [more' E']]. exists (more ++ more'). rewrite E', E, app_assoc. reflexivity.
Qed.
Print Assumptions C98_order.

Lemma oset_same {S} (d : odict S) k v : oget d k = Some v -> oset d k v = d.
Proof.
  induction d as [|[a b] d IH]; cbn; [discriminate|]. destruct (String.eqb_spec a k) as [->|N]; intros E; [injection E as ->; reflexivity|rewrite IH by exact E; reflexivity].
Qed.
Lemma oupdate_same {S} (u d : odict S) : (forall k v, In (k, v) u -> oget d k = Some v) -> oupdate d u = d.
Proof.
  unfold oupdate. revert d. induction u as [|[k v] u IH]; intros d H; [reflexivity|]. cbn [fold_left fst snd]. rewrite oset_same by (apply H; left; reflexivity). apply IH. intros. apply H. right. assumption.
Qed.
Lemma oget_in {S} (d : odict S) k v : NoDup (map fst d) -> In (k, v) d -> oget d k = Some v.
Proof.
  induction d as [|[a b] d IH]; intros N I; [destruct I|]. cbn [oget]. cbn in N. inversion N; subst. destruct I as [E|I]; [injection E as -> ->; rewrite String.eqb_refl; reflexivity|].
  destruct (String.eqb_spec a k) as [->|]; [exfalso; apply H1; apply in_map_iff; exists (k, v); auto|apply IH; assumption].
Qed.
(** C98.  An update changes no dictionary but the one its collection was made of; in particular not the one it is given, even if that
    is the same one. *)
Theorem C98_untouched : forall S (h : list (action S)) o m l, program (Update o m :: h) -> basis h o <> Some l \/ l = m -> dict_at (run (rev (Update o m :: h))) l = dict_at (run (rev h)) l.
Proof.
  intros S h o m l (Lo & Lm & P) H. destruct (run_says h P) as (Ld & Lc & Nd & Hc & Hb & Hv). cbn [rev]. rewrite run_snoc. set (s := run (rev h)) in *. cbn [step]. destruct (Hc o Lo) as [n En]. rewrite En.
  destruct (basis h o) as [b|] eqn:Eb; [|reflexivity]. rewrite (proj2 (Nat.ltb_lt m _)) by lia. unfold dict_at at 1. cbn [dicts]. rewrite replace_nth. destruct (Nat.eqb_spec l b) as [->|Nl]; cbn [andb]; [|reflexivity].
  destruct H as [H| ->]; [congruence|]. destruct (Nat.ltb m _); [|reflexivity]. apply oupdate_same. intros k v I. apply oget_in; [apply Nd|exact I].
Qed.
Print Assumptions C98_untouched.
(** C98.  num_scans of a collection is the size its last own argument had - of the constructor or of update -, whatever else is done. *)
Theorem C98_count : forall S (h : list (action S)) a o, program (a :: h) ->
  let s := run (rev h) in let s' := run (rev (a :: h)) in
  (forall m b, a = Update o m -> basis h o = Some b -> nth_error (colls s') o = Some (Some b, Some (List.length (dict_at s m)))) /\
  (forall b, a = Build (Some b) -> o = built h -> nth_error (colls s') o = Some (Some b, Some (List.length (dict_at s b)))) /\
  ((o < built h)%nat -> (forall m, a <> Update o m) -> nth_error (colls s') o = nth_error (colls s) o).
Proof.
  intros S h a o P s s'. assert (P' : program h) by (destruct a as [d|[l|]|o' m|m k v]; cbn in P; tauto). destruct (run_says h P') as (Ld & Lc & Nd & Hc & Hb & Hv). unfold s', s. clear s s'. cbn [rev]. rewrite run_snoc. set (s := run (rev h)) in *. split; [|split].
  - intros m b -> Eb. destruct P as (Lo & Lm & _). cbn [step]. destruct (Hc o Lo) as [n En]. rewrite En, Eb. rewrite (proj2 (Nat.ltb_lt m _)) by lia. cbn [colls]. rewrite replace_nth_error, Nat.eqb_refl, (proj2 (Nat.ltb_lt o _)) by lia. reflexivity.
  - intros b -> ->. destruct P as (Lb & _). cbn [step]. rewrite (proj2 (Nat.ltb_lt b _)) by lia. cbn [colls]. rewrite nth_error_app2, Lc, Nat.sub_diag by lia. reflexivity.
  - intros Lo Na. destruct a as [d|[b|]|o' m|m k v]; cbn [step].
    + reflexivity.
    + destruct (Nat.ltb b _); [|reflexivity]. cbn [colls]. rewrite nth_error_app1 by lia. reflexivity.
    + cbn [colls]. rewrite nth_error_app1 by lia. reflexivity.
    + destruct (nth_error (colls s) o') as [[[b|] n]|]; [|reflexivity..]. destruct (Nat.ltb m _); [|reflexivity]. cbn [colls]. rewrite replace_nth_error. destruct (Nat.eqb_spec o o') as [->|]; [exfalso; apply (Na m); reflexivity|reflexivity].
    + destruct (Nat.ltb m _); reflexivity.
Qed.
Print Assumptions C98_count.
(** C98, the other expectations: updating a collection leaves the caller's dictionary alone; num_scans is the number of scans. *)
Definition story : list (action nat) := rev [NewDict [("1"%string, 10)]; NewDict [("2"%string, 20)]; Build (Some 0); Build (Some 0); Update 0 1].
Example story_program : program story. Proof. cbn. repeat (constructor || lia || (intros []) || (cbn; intros [|[]]; discriminate)). Qed.
Theorem C98_caller_refuted : exists h : list (action nat), program (Update 0 1 :: h) /\ dict_at (run (rev (Update 0 1 :: h))) 0 <> dict_at (run (rev h)) 0.
Proof. exists (tl story). split; [exact story_program|discriminate]. Qed.
Print Assumptions C98_caller_refuted.
Theorem C98_count_refuted : exists h : list (action nat), program h /\ exists l n1 n2, nth_error (colls (run (rev h))) 0 = Some (Some l, Some n1) /\ nth_error (colls (run (rev h))) 1 = Some (Some l, Some n2) /\
  n1 <> List.length (dict_at (run (rev h)) l) /\ n2 <> List.length (dict_at (run (rev h)) l).
Proof. exists story. split; [exact story_program|]. exists 0, 1, 1. repeat split; discriminate. Qed.
Print Assumptions C98_count_refuted.

(** * Waterfall plots *)
Definition has_columns (x y c : string) (e : string * scan) : Prop := oget (snd e) x <> None /\ oget (snd e) y <> None /\ oget (snd e) c <> None.
Definition mean_label (z : option Z) (l : list R) : Prop :=
  match z with Some z => l <> [] /\ (Rabs (IZR z / 10 ^ 3 - fold_right Rplus 0 l / INR (List.length l)) <= / 2 / 10 ^ 3)%R | None => l = [] end.
(** The curve of scan [s] at place [i]. *)
Definition drawn_at (x y c : string) (offset : R) (i : nat) (s : scan) (u : curve) : Prop :=
  exists xs ys ls, oget s x = Some xs /\ oget s y = Some ys /\ oget s c = Some ls /\ c_x u = xs /\ List.length (c_y u) = List.length ys /\
    (forall j, (j < List.length ys)%nat -> nth j (c_y u) 0 = nth j ys 0 + offset * INR i)%R /\ c_column u = c /\ mean_label (c_mean u) ls.
Lemma rsum_fold l : rsum l = fold_right Rplus 0%R l. Proof. induction l as [|v l IH]; [reflexivity|]. cbn. rewrite IH. reflexivity. Qed.
Lemma curves_app x y c offset before : Forall (has_columns x y c) before -> forall i after,
  exists cs, curves_from i x y c offset (before ++ after) = (cs ++ fst (curves_from (i + List.length before) x y c offset after), snd (curves_from (i + List.length before) x y c offset after)) /\
    List.length cs = List.length before /\ forall j k s, nth_error before j = Some (k, s) -> exists u, nth_error cs j = Some u /\ drawn_at x y c offset (i + j) s u.
Proof.
  induction 1 as [|[k s] before (Hx & Hy & Hc) F IH]; intros i after.
  - exists []. cbn [app List.length]. rewrite Nat.add_0_r. split; [destruct (curves_from i x y c offset after); reflexivity|]. split; [reflexivity|]. intros [|j]; discriminate.
  - cbn [snd] in *. destruct (oget s x) as [xs|] eqn:Ex; [|contradiction]. destruct (oget s y) as [ys|] eqn:Ey; [|contradiction]. destruct (oget s c) as [ls|] eqn:Ec; [|contradiction].
    destruct (IH (Datatypes.S i) after) as (cs & E & Lc & Hn). replace (Datatypes.S i + List.length before)%nat with (i + List.length ((k, s) :: before))%nat in E by (cbn; lia).
    eexists (_ :: cs). cbn [app curves_from]. unfold column. rewrite Ex, Ey, Ec, E. split; [reflexivity|]. split; [cbn; lia|].
    intros [|j] k' s' En; cbn [nth_error] in En |- *.
    + injection En as <- <-. rewrite Nat.add_0_r. eexists. split; [reflexivity|]. exists xs, ys, ls. cbn [c_x c_y c_column c_mean]. repeat split; auto.
      * apply map_length.
      * intros j Lj. rewrite (nth_indep _ 0%R ((0 + offset * INR i)%R)) by (rewrite map_length; exact Lj). apply (map_nth (fun v => (v + offset * INR i)%R)).
      * unfold mean_label, label_mean. destruct ls as [|v ls]; [reflexivity|]. split; [discriminate|]. rewrite rsum_fold. apply DescribeProps.fixed_near.
    + destruct (Hn j k' s' En) as (u & Eu & Du). exists u. split; [exact Eu|]. replace (i + Datatypes.S j)%nat with (Datatypes.S i + j)%nat by lia. exact Du.
Qed.
(** C99.  With the three columns in every scan the plot has one curve per scan, in the order of the collection, the one at place i raised by i
    times the offset and labelled with the mean of its label column to three decimals; at the first scan without one of the columns
    drawing stops with KeyError after the curves before it. *)
Theorem C99_curves : forall x y c offset before, Forall (has_columns x y c) before ->
  exists cs, List.length cs = List.length before /\ (forall i k s, nth_error before i = Some (k, s) -> exists u, nth_error cs i = Some u /\ drawn_at x y c offset i s u) /\
    waterfall true (Some before) x y c offset = (cs, Ok tt) /\
    forall e after, ~ has_columns x y c e -> waterfall true (Some (before ++ e :: after)) x y c offset = (cs, Err KeyError).
Proof.
  intros x y c offset before F. destruct (curves_app x y c offset before F 0 []) as (cs & E & Lc & Hn). exists cs. split; [exact Lc|]. split; [exact Hn|]. split.
  - cbn [waterfall]. rewrite app_nil_r in E. rewrite E. cbn [curves_from fst snd]. rewrite app_nil_r. reflexivity.
  - intros [k s] after N. cbn [waterfall].
    assert (Stop : curves_from (0 + List.length before) x y c offset ((k, s) :: after) = ([], Err KeyError)).
    { cbn [curves_from]. unfold column. destruct (oget s x) eqn:Ex; [|reflexivity]. destruct (oget s y) eqn:Ey; [|reflexivity]. destruct (oget s c) eqn:Ec; [|reflexivity]. exfalso. apply N. repeat split; cbn [snd]; congruence. }
    clear Hn Lc N.
    assert (G : forall i b cs, Forall (has_columns x y c) b -> curves_from i x y c offset (b ++ []) = (cs, Ok tt) -> forall r, curves_from (i + List.length b) x y c offset r = ([], Err KeyError) -> curves_from i x y c offset (b ++ r) = (cs, Err KeyError)).
    { clear. intros i b. revert i. induction b as [|[k s] b IH]; intros i cs F E r Er.
      - cbn in E. injection E as <-. cbn [app]. rewrite Nat.add_0_r in Er. exact Er.
      - inversion F as [|? ? (Hx & Hy & Hc) F']; subst. cbn [app curves_from] in E |- *. destruct (column s x); [|discriminate]. destruct (column s y); [|discriminate]. destruct (column s c); [|discriminate].
        destruct (curves_from (Datatypes.S i) x y c offset (b ++ [])) as [cs' e'] eqn:E'. injection E as <- ->. rewrite (IH (Datatypes.S i) cs' F' E' r); [reflexivity|]. replace (Datatypes.S i + List.length b)%nat with (i + List.length ((k, s) :: b))%nat by (cbn; lia). exact Er. }
    apply (G 0%nat before cs F); [|exact Stop]. rewrite E. cbn [curves_from fst snd]. rewrite app_nil_r. reflexivity.
Qed.
Print Assumptions C99_curves.
(** C99.  Curves stay where they are: whatever the program does next, a scan that is still the same is drawn as the same curve at the same height. *)
Theorem C99_places : forall (h next : list (action scan)) l x y c offset cs cs' i k,
  (l < List.length (dicts (run h)))%nat -> NoDup (map fst (dict_at (run h) l)) -> NoDup (map fst (dict_at (run (h ++ next)) l)) ->
  waterfall true (Some (dict_at (run h) l)) x y c offset = (cs, Ok tt) -> waterfall true (Some (dict_at (run (h ++ next)) l)) x y c offset = (cs', Ok tt) ->
  nth_error (map fst (dict_at (run h) l)) i = Some k -> oget (dict_at (run (h ++ next)) l) k = oget (dict_at (run h) l) k ->
  exists u, nth_error cs i = Some u /\ nth_error cs' i = Some u.
Proof.
  intros h next l x y c offset cs cs' i k L N N' W W' En Eo. destruct (C98_order scan h next l L) as [more Em]. set (d := dict_at (run h) l) in *. set (d' := dict_at (run (h ++ next)) l) in *. clearbody d d'.
  assert (En' : nth_error (map fst d') i = Some k) by (rewrite Em; apply nth_error_app_some; exact En) || (rewrite Em, nth_error_app1 by (apply nth_error_Some; congruence); exact En).
  assert (At : forall (e : odict scan), NoDup (map fst e) -> nth_error (map fst e) i = Some k -> exists s, nth_error e i = Some (k, s) /\ oget e k = Some s).
  { intros e Ne Ei. rewrite nth_error_map in Ei. destruct (nth_error e i) as [[k' s]|] eqn:E; [|discriminate]. cbn in Ei. injection Ei as ->. exists s. split; [reflexivity|]. apply oget_in; [exact Ne|apply nth_error_In in E; exact E]. }
  destruct (At d N En) as (s & Es & Os). destruct (At d' N' En') as (s' & Es' & Os'). assert (s' = s) by congruence. subst s'.
  assert (C : forall (e : odict scan) (j : nat) (us : list curve), curves_from j x y c offset e = (us, Ok tt) -> forall i, nth_error e i = Some (k, s) -> exists xs ys ls, column s x = Ok xs /\ column s y = Ok ys /\ column s c = Ok ls /\ nth_error us i = Some (mkCurve xs (map (fun v => v + offset * INR (j + i))%R ys) c (label_mean ls))).
  { clear. induction e as [|[k0 s0] e IH]; intros j us E i Ei; [destruct i; discriminate|]. cbn [curves_from] in E. destruct (column s0 x) as [xs|] eqn:Ex; [|discriminate]. destruct (column s0 y) as [ys|] eqn:Ey; [|discriminate]. destruct (column s0 c) as [ls|] eqn:Ec; [|discriminate].
    destruct (curves_from (Datatypes.S j) x y c offset e) as [r q] eqn:Er. injection E as <- ->. destruct i as [|i]; cbn [nth_error] in Ei |- *.
    - injection Ei as _ ->. exists xs, ys, ls. rewrite Nat.add_0_r. repeat split; assumption.
    - replace (j + Datatypes.S i)%nat with (Datatypes.S j + i)%nat by lia. apply (IH _ _ Er). exact Ei. }
  destruct (C d 0%nat cs W i Es) as (xs & ys & ls & E1 & E2 & E3 & E4). destruct (C d' 0%nat cs' W' i Es') as (xs' & ys' & ls' & F1 & F2 & F3 & F4). eexists. split; [exact E4|]. rewrite F4. congruence.
Qed.
Print Assumptions C99_places.
Example C99_curves_case : exists u v, waterfall true (Some [("1"%string, [("e"%string, [1; 2]); ("h"%string, [1; 1])]); ("2"%string, [("e"%string, [3; 4]); ("h"%string, [2; 2])])]%R) "e" "e" "h" 5 = ([u; v], Ok tt) /\ c_y v = [3 + 5 * INR 1; 4 + 5 * INR 1]%R.
Proof. do 2 eexists. split; reflexivity. Qed.
(** C99.  A collection of nothing is refused, and with a matplotlib without the function hold nothing is ever drawn. *)
Theorem C99_refused : forall hold s x y c offset, (s = None -> waterfall hold s x y c offset = ([], Err RuntimeError)) /\ (hold = false -> fst (waterfall hold s x y c offset) = [] /\ snd (waterfall hold s x y c offset) <> Ok tt).
Proof. intros hold [d|] x y c offset; split; intros E; subst; try discriminate; try reflexivity; split; [reflexivity|discriminate|reflexivity|discriminate]. Qed.
Print Assumptions C99_refused.

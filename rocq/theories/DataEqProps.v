(** C89: equality of datasets. *)
From Coq Require Import String List QArith Bool Arith Lia.
From Verif Require Import Base DataModel OpsModel DataEqModel.
Import ListNotations.

(** [n] points in columns of distinct names. *)
Definition points (n : nat) (f : frame) : Prop := f <> [] /\ NoDup (names f) /\ Forall (fun e => length (snd e) = n) f.
Definition equal_numbers (x y : option Q) : Prop := exists p q, x = Some p /\ y = Some q /\ p == q.

Lemma entry_eq_iff x y : entry_eq x y = true <-> equal_numbers x y.
Proof.
  unfold entry_eq, equal_numbers. destruct x as [p|], y as [q|]; try (split; [discriminate|intros (u & v & A & B & _); discriminate]).
  rewrite Qeq_bool_iff. split; [eauto|intros (u & v & A & B & E); injection A as ->; injection B as ->; exact E].
Qed.
Lemma all_eq_iff a : forall b, length a = length b -> (all_eq a b = true <-> forall i x y, nth_error a i = Some x -> nth_error b i = Some y -> equal_numbers x y).
Proof.
  induction a as [|x a IH]; intros [|y b] L; try discriminate; cbn [all_eq].
  - split; auto. intros _ [|i]; discriminate.
  - injection L as L. rewrite andb_true_iff, entry_eq_iff, (IH b L). split.
    + intros [E F] [|i] u v A B; [injection A as <-; injection B as <-; exact E|eapply F; eauto].
    + intros F. split; [apply (F 0%nat); reflexivity|]. intros i. apply (F (S i)).
Qed.
Lemma in_nth {A} (l : list A) x : In x l <-> exists i, nth_error l i = Some x.
Proof. split; [apply In_nth_error|intros [i E]; eapply nth_error_In, E]. Qed.
Lemma np_iff r a b : np_all_eq r a b = Ok true <-> (length a = length b \/ length a = 1 \/ length b = 1)%nat /\
  forall i j x y, nth_error a i = Some x -> nth_error b j = Some y -> (length a = length b -> i = j) -> equal_numbers x y.
Proof.
  unfold np_all_eq. destruct (Nat.eqb_spec (length a) (length b)) as [E|N].
  - split.
    + intros H. injection H as H. rewrite (all_eq_iff a b E) in H. split; auto. intros i j x y A B C. specialize (C E). subst j. eapply H; eauto.
    + intros [_ H]. f_equal. apply all_eq_iff; auto. intros i x y A B. eapply H; eauto.
  - assert (S : forall (x : option Q) c, (forallb (entry_eq x) c = true <-> forall i y, nth_error c i = Some y -> equal_numbers x y) /\ (forallb (fun y => entry_eq y x) c = true <-> forall i y, nth_error c i = Some y -> equal_numbers y x)).
    { intros x c. rewrite !forallb_forall. split; split.
      - intros H i y Y. apply entry_eq_iff, H, in_nth. eauto.
      - intros H y Y. apply in_nth in Y as [i Y]. apply entry_eq_iff. eauto.
      - intros H i y Y. apply entry_eq_iff, (H y), in_nth. eauto.
      - intros H y Y. apply in_nth in Y as [i Y]. apply entry_eq_iff. eauto. }
    destruct a as [|x [|x' a]].
    + destruct b as [|y [|y' b]]; [contradiction|..].
      * cbn. split; auto. intros _. split; [auto|]. intros [|i]; discriminate.
      * split; [destruct r; discriminate|]. intros [[L|[L|L]] _]; discriminate.
    + destruct (S x b) as [S1 _]. split.
      * intros H. injection H as H. rewrite S1 in H. split; [cbn; auto|]. intros [|[|i]] j u v A B _; try discriminate. injection A as <-. eauto.
      * intros [_ H]. f_equal. apply S1. intros j y Y. apply (H 0%nat j); auto. intros L. contradiction.
    + destruct b as [|y [|y' b]].
      * split; [destruct r; discriminate|]. intros [[L|[L|L]] _]; discriminate.
      * destruct (S y (x :: x' :: a)) as [_ S2]. split.
        -- intros H. injection H as H. rewrite S2 in H. split; [cbn; auto|]. intros i [|[|j]] u v A B _; try discriminate. injection B as <-. eauto.
        -- intros [_ H]. f_equal. apply S2. intros i u U. apply (H i 0%nat); auto. intros L. contradiction.
      * split; [destruct r; discriminate|]. intros [[L|[L|L]] _]; try discriminate; contradiction.
Qed.
Lemma find_in g k b : NoDup (names g) -> (find_col g k = Some b <-> In (k, b) g).
Proof.
  induction g as [|[k' c] g IH]; cbn [find_col names map fst]; intros N; [split; [discriminate|contradiction]|]. inversion N as [|? ? N1 N2]; subst. destruct (String.eqb_spec k k') as [->|D].
  - split; [intros H; injection H as ->; left; reflexivity|]. intros [H|H]; [injection H as ->; reflexivity|]. exfalso. apply N1. apply in_map_iff. exists (k', b). auto.
  - rewrite (IH N2). split; [right; auto|]. intros [H|H]; [injection H as H _; congruence|exact H].
Qed.
Lemma mem_iff k l : mem k l = true <-> In k l.
Proof. unfold mem. rewrite existsb_exists. split; [intros (x & I & E); apply String.eqb_eq in E; subst; exact I|intros I; exists k; split; [exact I|apply String.eqb_refl]]. Qed.
Lemma names_iff f g : NoDup (names f) -> NoDup (names g) -> (same_names f g = true <-> forall k, In k (names f) <-> In k (names g)).
Proof.
  intros Nf Ng. unfold same_names. rewrite andb_true_iff, Nat.eqb_eq, forallb_forall. split.
  - intros [L I]. assert (If : incl (names f) (names g)) by (intros k K; apply mem_iff, I, K). intros k. split; [apply If|]. revert k. apply NoDup_length_incl; auto. unfold names. rewrite !map_length. lia.
  - intros H. split; [|intros k K; apply mem_iff, H, K]. rewrite <- (map_length fst f), <- (map_length fst g). apply Nat.le_antisymm; apply NoDup_incl_length; auto; intros k; apply H.
Qed.
Lemma compare_iff r f : forall g, NoDup (names g) -> incl (names f) (names g) ->
  (compare r f g = Ok true <-> forall k a b, In (k, a) f -> In (k, b) g -> np_all_eq r a b = Ok true).
Proof.
  induction f as [|[k a] f IH]; intros g N I; cbn [compare].
  - split; auto. intros _ k a b [].
  - assert (Ik : In k (names g)) by (apply I; left; reflexivity). apply in_map_iff in Ik as [[k' b] [E Ib]]. cbn in E. subst k'. rewrite (proj2 (find_in g k b N) Ib).
    assert (I' : incl (names f) (names g)) by (intros x X; apply I; right; exact X). split.
    + intros H k' a' b' [J|J] Jb.
      * injection J as -> ->. assert (b' = b) by (apply (find_in g k' b N) in Ib; apply (find_in g k' b' N) in Jb; congruence). subst b'. destruct (np_all_eq r a' b) as [[|]|]; cbn in H; congruence.
      * destruct (np_all_eq r a b) as [[|]|] eqn:E; cbn in H; try discriminate. eapply IH; eauto.
    + intros H. rewrite (H k a b (or_introl eq_refl) Ib). cbn [bind]. apply IH; auto. intros. eapply H; eauto. right. eassumption.
Qed.

(** Datasets are equal exactly if they have the same columns and the same numbers in them; a dataset of a single point equals every
    dataset all of whose points agree with it. *)
Theorem C89_equal_iff : forall r n m f g, points n f -> points m g ->
  (data_eq r f g = Ok true <->
   (forall k, In k (names f) <-> In k (names g)) /\ (n = m \/ n = 1 \/ m = 1)%nat /\
   forall k a b i j x y, In (k, a) f -> In (k, b) g -> nth_error a i = Some x -> nth_error b j = Some y -> (n = m -> i = j) -> equal_numbers x y).
Proof.
  intros r n m f g (Ef & Nf & Lf) (Eg & Ng & Lg). rewrite Forall_forall in Lf, Lg. unfold data_eq. assert (W := names_iff f g Nf Ng). destruct (same_names f g).
  - assert (S : forall k, In k (names f) <-> In k (names g)) by (apply W; reflexivity). rewrite compare_iff; [|exact Ng|intros k; apply S]. split.
    + intros H. split; [exact S|]. assert (H' : forall k a b, In (k, a) f -> In (k, b) g -> (n = m \/ n = 1 \/ m = 1)%nat /\ forall i j x y, nth_error a i = Some x -> nth_error b j = Some y -> (n = m -> i = j) -> equal_numbers x y).
      { intros k a b A B. assert (X := H k a b A B). apply np_iff in X. assert (La := Lf _ A). assert (Lb := Lg _ B). cbn [snd] in La, Lb. rewrite La, Lb in X. exact X. }
      split; [|intros k a b i j x y A B; destruct (H' k a b A B) as [_ K]; apply K]. destruct f as [|[k a] f]; [contradiction|]. assert (Ik : In k (names g)) by (apply S; left; reflexivity). apply in_map_iff in Ik as [[k' b] [E Ib]]. cbn in E. subst k'.
      apply (H' k a b (or_introl eq_refl) Ib).
    + intros (_ & L & H) k a b A B. apply np_iff. assert (La := Lf _ A). assert (Lb := Lg _ B). cbn [snd] in La, Lb. rewrite La, Lb. split; [exact L|]. intros i j x y. apply (H k a b); assumption.
  - split; [discriminate|]. intros [S _]. apply W in S. discriminate.
Qed.
Print Assumptions C89_equal_iff.
Example C89_equal_case : let d := [("h"%string, [Some 1; Some 2]); ("detector"%string, [Some 5; Some 7])] in
  let e := [("detector"%string, [Some 5; Some 7]); ("h"%string, [Some (2 # 2); Some 2])] in
  points 2 d /\ points 2 e /\ data_eq true d e = Ok true /\ data_eq true d [("h"%string, [Some 1; Some 2]); ("detector"%string, [Some 5; Some 8])] = Ok false.
Proof. repeat split; try discriminate; repeat constructor; cbn; intuition discriminate. Qed.

(** The order does not matter. *)
Theorem C89_symmetric : forall r n m f g, points n f -> points m g -> data_eq r f g = Ok true -> data_eq r g f = Ok true.
Proof.
  intros r n m f g F G H. apply (C89_equal_iff r n m f g F G) in H as (S & L & H). apply (C89_equal_iff r m n g f G F). split; [intros k; split; apply S|]. split; [lia|]. intros k a b i j x y A B X Y E.
  destruct (H k b a j i y x B A Y X) as (p & q & P & Q & PQ); [intros ->; symmetry; apply E; reflexivity|]. exists q, p. repeat split; auto. symmetry. exact PQ.
Qed.
Print Assumptions C89_symmetric.

(** An answer comes unless the numbers of points differ and none is one; then the datasets differ or ValueError is raised. *)
Theorem C89_answers : forall r n m f g, points n f -> points m g ->
  ((n = m \/ n = 1 \/ m = 1)%nat -> exists b, data_eq r f g = Ok b) /\
  (n <> m -> n <> 1%nat -> m <> 1%nat -> data_eq r f g = Ok false \/ (r = true /\ data_eq r f g = Err ValueError)).
Proof.
  intros r n m f g (Ef & Nf & Lf) (Eg & Ng & Lg). rewrite Forall_forall in Lf, Lg. unfold data_eq. assert (W := names_iff f g Nf Ng). destruct (same_names f g); [|split; [eauto|auto]].
  assert (S : incl (names f) (names g)) by (intros k; apply W; reflexivity). clear W Nf. split.
  - intros L. clear Ef. induction f as [|[k a] f IH]; [exists true; reflexivity|]. cbn [compare]. assert (Ik : In k (names g)) by (apply S; left; reflexivity). apply in_map_iff in Ik as [[k' b] [E Ib]]. cbn in E. subst k'. rewrite (proj2 (find_in g k b Ng) Ib).
    assert (La := Lf (k, a) (or_introl eq_refl)). assert (Lb := Lg (k, b) Ib). cbn [snd] in La, Lb.
    assert (B : exists t, np_all_eq r a b = Ok t). { unfold np_all_eq. destruct (Nat.eqb_spec (length a) (length b)) as [|D]; [eauto|]. destruct a as [|x [|x' a]], b as [|y [|y' b]]; eauto; cbn in *; lia. }
    destruct B as [t ->]. cbn [bind]. destruct t; [|eauto]. apply IH; [intros e I; apply Lf; right; exact I|intros x X; apply S; right; exact X].
  - intros D N1 M1. destruct f as [|[k a] f]; [contradiction|]. cbn [compare]. assert (Ik : In k (names g)) by (apply S; left; reflexivity). apply in_map_iff in Ik as [[k' b] [E Ib]]. cbn in E. subst k'. rewrite (proj2 (find_in g k b Ng) Ib).
    assert (La := Lf (k, a) (or_introl eq_refl)). assert (Lb := Lg (k, b) Ib). cbn [snd] in La, Lb.
    assert (B : np_all_eq r a b = if r then Err ValueError else Ok false). { unfold np_all_eq. destruct (Nat.eqb_spec (length a) (length b)) as [|_]; [congruence|]. destruct a as [|x [|x' a]], b as [|y [|y' b]]; auto; cbn in *; congruence. }
    rewrite B. destruct r; cbn [bind]; auto.
Qed.
Print Assumptions C89_answers.
Example C89_answers_case : let d := [("h"%string, [Some 1; Some 2; Some 3])] in let e := [("h"%string, [Some 1; Some 2])] in
  points 3 d /\ points 2 e /\ data_eq true d e = Err ValueError /\ data_eq false d e = Ok false.
Proof. repeat split; try discriminate; repeat constructor; cbn; intuition discriminate. Qed.

(** So equality is not transitive, *)
Theorem C89_transitive_refuted : forall r, exists d e f, points 2 d /\ points 1 e /\ points 3 f /\
  data_eq r d e = Ok true /\ data_eq r e f = Ok true /\ data_eq r d f <> Ok true.
Proof.
  intros r. exists [("h"%string, [Some 1; Some 1])], [("h"%string, [Some 1])], [("h"%string, [Some 1; Some 1; Some 1])].
  split; [|split; [|split]]; try (split; [discriminate|split; repeat constructor; intuition]). split; [reflexivity|]. split; [reflexivity|]. destruct r; cbn; discriminate.
Qed.
Print Assumptions C89_transitive_refuted.

(** a dataset without points equals every single point, *)
Theorem C89_empty_equals_point : forall r n p f, points n f -> (1 <= n)%nat -> points 1 p -> (forall k, In k (names f) <-> In k (names p)) ->
  data_eq r p (map (fun e => (fst e, [])) f) = Ok true.
Proof.
  intros r n p f (Ef & Nf & Lf) N Pp S. apply (C89_equal_iff r 1 0 p); [exact Pp|split; [|split]|].
  - destruct f; [contradiction|discriminate].
  - unfold names. rewrite map_map. exact Nf.
  - rewrite Forall_forall. intros e I. apply in_map_iff in I as (x & <- & _). reflexivity.
  - unfold names at 2. rewrite map_map. split; [intros k; split; apply S|]. split; [auto|]. intros k a b i j x y _ B _ Y _. apply in_map_iff in B as (u & E & _). injection E as _ <-. destruct j; discriminate.
Qed.
Print Assumptions C89_empty_equals_point.
Example C89_empty_case : data_eq true [("h"%string, [Some 4])] [("h"%string, [])] = Ok true.
Proof. reflexivity. Qed.

(** a dataset in which a number is missing differs from itself, *)
Theorem C89_missing_number_differs : forall r n f k a i, points n f -> In (k, a) f -> nth_error a i = Some None -> data_eq r f f <> Ok true.
Proof.
  intros r n f k a i F I N H. apply (C89_equal_iff r n n f f F F) in H as (_ & _ & H). destruct (H k a a i i None None I I N N) as (p & q & P & _); [auto|]. discriminate.
Qed.
Print Assumptions C89_missing_number_differs.
Example C89_nan_case : let d := [("temp"%string, [Some 1; None])] in points 2 d /\ data_eq true d d = Ok false.
Proof. repeat split; try discriminate; repeat constructor; cbn; intuition discriminate. Qed.

(** and equal datasets report different intensities, as the number they are normalised to is not compared. *)
Theorem C89_intensity_refuted : exists d e i j d' e', data_eq true (frame_of (tab d)) (frame_of (tab e)) = Ok true /\ dk d = dk e /\ time_norm d = time_norm e /\
  intensity d = Ok (i, d') /\ intensity e = Ok (j, e') /\ i <> j.
Proof.
  set (t := mkTable ["detector"; "monitor"; "time"]%string [[6; 2; 1]; [8; 4; 1]]).
  exists (mkData t default_dkeys 4 1 None false), (mkData t default_dkeys 1 1 None false). eexists _, _, _, _. split; [reflexivity|]. split; [reflexivity|]. split; [reflexivity|]. split; [reflexivity|]. split; [reflexivity|]. cbn. intros H. discriminate.
Qed.
Print Assumptions C89_intensity_refuted.

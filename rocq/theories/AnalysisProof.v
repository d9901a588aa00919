From Coq Require Import String List QArith Qabs Qround Bool Arith Lia Lqa ZArith Permutation Sorted.
From Verif Require Import Base DataModel DataSpec DataProof CombineProof OpsModel OpsSpec OpsProof AnalysisModel.
Import ListNotations.
Local Open Scope string_scope.

Ltac qlra := unfold Qdiv in *; change (/ 2) with (1 # 2) in *; lra.

(** ** Sorting *)
Lemma insert_q_perm x l : Permutation (insert_q x l) (x :: l).
Proof.
  induction l; simpl; auto. destruct (Qle_bool x a); auto.
  rewrite IHl. apply perm_swap.
Qed.
Lemma sort_q_perm l : Permutation (sort_q l) l.
Proof. unfold sort_q. induction l; simpl; auto. rewrite insert_q_perm. auto. Qed.
Definition ascending (l : list Q) : Prop := Sorted Qle l.
Lemma Qle_bool_false a b : Qle_bool a b = false -> b < a.
Proof. intros E. destruct (Qlt_le_dec b a); auto. apply Qle_bool_iff in q. congruence. Qed.
Lemma insert_q_sorted x l : Sorted Qle l -> Sorted Qle (insert_q x l).
Proof.
  induction 1; simpl; [repeat constructor|]. destruct (Qle_bool x a) eqn:E.
  - constructor; [constructor; auto|]. constructor. now apply Qle_bool_iff.
  - constructor; auto. apply Qle_bool_false in E. destruct l; simpl in *.
    + constructor. lra.
    + destruct (Qle_bool x q); constructor; [lra|]. inversion H0; auto.
Qed.
Lemma sort_q_sorted l : Sorted Qle (sort_q l).
Proof. unfold sort_q. induction l; simpl; [constructor|]. now apply insert_q_sorted. Qed.
Lemma Qle_trans' : Relations_1.Transitive Qle. Proof. intros a b c; apply Qle_trans. Qed.
Lemma sorted_strong l : Sorted Qle l -> StronglySorted Qle l.
Proof. apply Sorted_StronglySorted. exact Qle_trans'. Qed.

(** The [n] lowest values of [l]. *)
Definition lowest (n : nat) (l lows : list Q) : Prop :=
  length lows = Nat.min n (length l) /\
  exists rest, Permutation l (lows ++ rest) /\ forall a b, In a lows -> In b rest -> a <= b.

Lemma skipn_in {A} n (l : list A) x : In x (skipn n l) -> In x l.
Proof. revert n; induction l; intros [|n]; simpl; auto. intros H. right. eauto. Qed.
Lemma firstn_in {A} n (l : list A) x : In x (firstn n l) -> In x l.
Proof. revert n; induction l; intros [|n]; simpl; try tauto. intros [->|H]; auto. right. eauto. Qed.
Lemma firstn_lowest n l : lowest n l (firstn n (sort_q l)).
Proof.
  split; [rewrite firstn_length, (Permutation_length (sort_q_perm l)); auto|].
  exists (skipn n (sort_q l)). rewrite firstn_skipn. split; [symmetry; apply sort_q_perm|].
  assert (S := sorted_strong _ (sort_q_sorted l)). revert n. induction S; intros [|n] x y; simpl; try tauto.
  intros [->|Hx] Hy; [|eauto]. rewrite Forall_forall in H. apply H. eapply skipn_in; eauto.
Qed.

(** ** Averages *)
Definition len (l : list Q) : Q := inject_Z (Z.of_nat (length l)).
Lemma len_cons x l : len (x :: l) == len l + 1.
Proof. unfold len. simpl length. rewrite Nat2Z.inj_succ. unfold Z.succ. rewrite inject_Z_plus. reflexivity. Qed.
Lemma len_nonneg l : 0 <= len l.
Proof. unfold len. change 0 with (inject_Z 0). rewrite <- Zle_Qle. lia. Qed.
Lemma len_pos l : l <> [] -> 0 < len l.
Proof. destruct l; [tauto|]. intros _. rewrite len_cons. assert (H := len_nonneg l). lra. Qed.

Lemma qavg_some l v : qavg l = Some v -> l <> [] /\ v * len l == Qsum l.
Proof.
  unfold qavg. destruct l as [|x l0] eqn:El; [discriminate|]. rewrite <- El. intros E. inversion E. split; [congruence|].
  fold (len l). unfold Qsum. assert (0 < len l) by (apply len_pos; congruence). field. lra.
Qed.
Lemma sum_bounds lo hi l : Forall (fun x => lo <= x /\ x <= hi) l -> lo * len l <= Qsum l /\ Qsum l <= hi * len l.
Proof.
  induction 1; [change (len []) with 0; unfold Qsum; simpl; lra|]. unfold Qsum in *. cbn [fold_right].
  assert (E := len_cons x l). destruct H, IHForall.
  assert (lo * len (x :: l) == lo * len l + lo) by (rewrite E; ring).
  assert (hi * len (x :: l) == hi * len l + hi) by (rewrite E; ring). lra.
Qed.
Lemma avg_bounds lo hi l v : qavg l = Some v -> Forall (fun x => lo <= x /\ x <= hi) l -> lo <= v /\ v <= hi.
Proof.
  intros E F. apply qavg_some in E. destruct E as [N E]. apply sum_bounds in F.
  assert (P := len_pos l N). split; apply (Qmult_le_r _ _ (len l)); auto; lra.
Qed.

Lemma sum_le y l : Forall (fun x => x <= y) l -> Qsum l <= y * len l.
Proof.
  induction 1; [change (len []) with 0; unfold Qsum; simpl; lra|]. unfold Qsum in *. cbn [fold_right].
  assert (E := len_cons x l). assert (y * len (x :: l) == y * len l + y) by (rewrite E; ring). lra.
Qed.
Lemma sum_ge y l : Forall (fun x => y <= x) l -> y * len l <= Qsum l.
Proof.
  induction 1; [change (len []) with 0; unfold Qsum; simpl; lra|]. unfold Qsum in *. cbn [fold_right].
  assert (E := len_cons x l). assert (y * len (x :: l) == y * len l + y) by (rewrite E; ring). lra.
Qed.

(** Mean of a longer prefix of an ascending list is not smaller. *)
Lemma prefix_avg_mono n : forall m l a b, StronglySorted Qle l -> (n <= m)%nat ->
  qavg (firstn n l) = Some a -> qavg (firstn m l) = Some b -> a <= b.
Proof.
  intros m l a b S H Ha Hb.
  assert (E : firstn m l = (firstn n l ++ firstn (m - n) (skipn n l))%list).
  { clear - H. revert n m H. induction l; intros [|n] [|m] H; simpl; try lia; auto.
    - now rewrite firstn_nil.
    - f_equal. apply IHl. lia. }
  rewrite E in Hb. set (p := firstn n l) in *. set (q := firstn (m - n) (skipn n l)) in *.
  apply qavg_some in Ha. apply qavg_some in Hb. destruct Ha as [Np Ea], Hb as [_ Eb].
  assert (Q : forall x y, In x p -> In y q -> x <= y).
  { unfold p, q. intros x y Hx Hy. apply firstn_in in Hy. clear - S Hx Hy. revert n Hx Hy.
    induction S; intros [|n]; simpl; try tauto. intros [->|Hx] Hy; [|eauto].
    rewrite Forall_forall in H. apply H. eapply skipn_in; eauto. }
  assert (Es : Qsum (p ++ q) == Qsum p + Qsum q).
  { clear. unfold Qsum. induction p; simpl; [ring|]. rewrite IHp. ring. }
  assert (El : len (p ++ q) == len p + len q).
  { unfold len. rewrite app_length, Nat2Z.inj_add, inject_Z_plus. reflexivity. }
  (* every element of q is at least a *)
  assert (G : a * len q <= Qsum q).
  { assert (F : Forall (fun y => a <= y) q).
    { rewrite Forall_forall. intros y Hy.
      assert (U : Qsum p <= y * len p) by (apply sum_le; rewrite Forall_forall; auto).
      apply (Qmult_le_r _ _ (len p)); [now apply len_pos|]. lra. }
    now apply sum_ge. }
  assert (P := len_pos p Np). assert (P' := len_nonneg q).
  apply (Qmult_le_r _ _ (len p + len q)); [lra|].
  assert (b * (len p + len q) == Qsum p + Qsum q) by (rewrite <- El, <- Es; auto).
  assert (a * (len p + len q) == a * len p + a * len q) by ring. lra.
Qed.

Lemma n_lowest_mono size v w : v <= w -> (n_lowest size v <= n_lowest size w)%nat.
Proof.
  intros H. unfold n_lowest. 
  assert (Qfloor (inject_Z (Z.of_nat size) * (v / 100)) <= Qfloor (inject_Z (Z.of_nat size) * (w / 100)))%Z.
  { apply Qfloor_resp_le. rewrite !(Qmult_comm (inject_Z _)). apply Qmult_le_compat_r.
    - unfold Qdiv. change (/ 100) with (1 # 100). lra.
    - change 0 with (inject_Z 0). rewrite <- Zle_Qle. lia. }
  lia.
Qed.

Lemma list_min_spec l : forall x, In (list_min x l) (x :: l) /\ Forall (fun y => list_min x l <= y) (x :: l).
Proof.
  induction l as [|y l IH]; intros x; simpl.
  - split; [auto|]. constructor; auto. apply Qle_refl.
  - destruct (Qle_bool x y) eqn:E.
    + destruct (IH x) as [A B]. split; [destruct A; auto|]. apply Qle_bool_iff in E. inversion B; subst.
      constructor; auto. constructor; auto. eapply Qle_trans; eauto.
    + destruct (IH y) as [A B]. split; [destruct A; auto|]. apply Qle_bool_false in E. inversion B; subst.
      constructor; auto. eapply Qle_trans; [eauto|]. lra.
Qed.

(** ** Trapezoid sums *)
Lemma trapz_cons2 y0 y1 y x0 x1 x : trapz (y0 :: y1 :: y) (x0 :: x1 :: x) = (x1 - x0) * (y0 + y1) / 2 + trapz (y1 :: y) (x1 :: x).
Proof. reflexivity. Qed.
Lemma trapz_nil_r y : trapz y [] = 0. Proof. destruct y as [|? []]; reflexivity. Qed.
Lemma trapz_one_r y a : trapz y [a] = 0. Proof. destruct y as [|? []]; reflexivity. Qed.

Lemma trapz_add y1 : forall y2 x, length y1 = length y2 -> trapz (zip_with Qplus y1 y2) x == trapz y1 x + trapz y2 x.
Proof.
  induction y1 as [|a y1 IH]; intros [|b y2] x L; simpl in L; try lia; [simpl; ring|].
  destruct y1 as [|a' y1], y2 as [|b' y2]; simpl in L; try lia.
  - destruct x as [|? []]; simpl; ring.
  - destruct x as [|x0 [|x1 x]]; [rewrite !trapz_nil_r; ring|rewrite !trapz_one_r; ring|].
    cbn [zip_with]. rewrite !trapz_cons2. specialize (IH (b' :: y2) (x1 :: x)). cbn [zip_with] in IH.
    rewrite IH by (simpl; lia). field.
Qed.
Lemma trapz_scale c y : forall x, trapz (map (fun v => c * v) y) x == c * trapz y x.
Proof.
  induction y as [|a y IH]; intros x; [simpl; ring|].
  destruct y as [|b y]; [destruct x as [|? []]; simpl; ring|].
  destruct x as [|x0 [|x1 x]]; [rewrite !trapz_nil_r; ring|rewrite !trapz_one_r; ring|].
  cbn [map]. rewrite !trapz_cons2. cbn [map] in IH. rewrite IH. field.
Qed.
Lemma trapz_ext y y' x : Forall2 Qeq y y' -> trapz y x == trapz y' x.
Proof.
  intros F. revert x. induction F as [|a b y y' E F IH]; intros x; [reflexivity|].
  inversion F as [|c d ? ? E' F']; subst; [destruct x as [|? []]; reflexivity|].
  destruct x as [|x0 [|x1 x]]; [now rewrite !trapz_nil_r|now rewrite !trapz_one_r|].
  rewrite !trapz_cons2, IH, E, E'. reflexivity.
Qed.
Lemma trapz_ext_x y x x' : Forall2 Qeq x x' -> trapz y x == trapz y x'.
Proof.
  intros F. revert y. induction F as [|a b x x' E F IH]; intros y; [now rewrite !trapz_nil_r|].
  inversion F as [|c d ? ? E' F']; subst; [now rewrite !trapz_one_r|].
  destruct y as [|y0 [|y1 y]]; try reflexivity.
  rewrite !trapz_cons2, IH, E, E'. reflexivity.
Qed.
Lemma trapz_shift s y : forall x, trapz y (map (fun v => v + s) x) == trapz y x.
Proof.
  induction y as [|y0 y IH]; intros x; [reflexivity|].
  destruct y as [|y1 y]; [destruct x as [|? []]; reflexivity|].
  destruct x as [|x0 [|x1 x]]; [now rewrite !trapz_nil_r|now rewrite !trapz_one_r|].
  cbn [map]. rewrite !trapz_cons2. cbn [map] in IH. specialize (IH (x1 :: x)). cbn [map] in IH. rewrite IH. field.
Qed.
Lemma trapz_mono y y' x : Sorted Qle x -> Forall2 Qle y y' -> trapz y x <= trapz y' x.
Proof.
  intros S F. revert x S. induction F as [|a b y y' E F IH]; intros x S; [simpl; apply Qle_refl|].
  inversion F as [|c d ? ? E' F']; subst; [destruct x as [|? []]; simpl; apply Qle_refl|].
  destruct x as [|x0 [|x1 x]]; [rewrite !trapz_nil_r; apply Qle_refl|rewrite !trapz_one_r; apply Qle_refl|].
  rewrite !trapz_cons2. inversion S as [|? ? S' H]; subst. inversion H; subst.
  specialize (IH _ S').
  assert ((x1 - x0) * (a + c) <= (x1 - x0) * (b + d)).
  { rewrite !(Qmult_comm (x1 - x0)). apply Qmult_le_compat_r; lra. }
  unfold Qdiv. change (/ 2) with (1 # 2). lra.
Qed.

(** ** Weighted sums over several integration columns *)
Definition wsum (xs : list (list Q)) (f w : list Q) : Q :=
  Qsum (map (fun x => trapz (zip_with Qmult f w) x) xs).

Lemma moment_wsum d b bg hkle f v : moment d b bg hkle f = Some v ->
  v * integrate d b bg true == wsum (map (scol d b) (get_keys d hkle)) f (net d b bg) /\ ~ integrate d b bg true == 0.
Proof.
  unfold moment. destruct (Qeq_bool (integrate d b bg true) 0) eqn:E; [discriminate|]. apply Qeq_bool_neq in E.
  intros H; inversion H; clear H. split; auto. unfold wsum, Qsum. rewrite map_map.
  set (t := integrate d b bg true) in *. clearbody t. clear H1.
  induction (get_keys d hkle) as [|k l IH]; simpl; [ring|]. rewrite <- IH. field. auto.
Qed.

Lemma wsum_const xs c w : wsum xs (map (fun _ => c) w) w == c * Qsum (map (trapz w) xs).
Proof.
  unfold wsum, Qsum. induction xs as [|x xs IH]; simpl; [ring|]. rewrite IH.
  assert (E : zip_with Qmult (map (fun _ => c) w) w = map (fun v => c * v) w).
  { clear. induction w; simpl; auto. f_equal; auto. }
  rewrite E, trapz_scale. ring.
Qed.
Lemma wsum_mono xs f g w : Forall (Sorted Qle) xs -> Forall (fun v => 0 <= v) w -> Forall2 Qle f g ->
  length f = length w -> wsum xs f w <= wsum xs g w.
Proof.
  intros S W F L. unfold wsum, Qsum. induction S as [|x xs Hx S IH]; simpl; [apply Qle_refl|].
  assert (trapz (zip_with Qmult f w) x <= trapz (zip_with Qmult g w) x).
  { apply trapz_mono; auto. clear - W F L. revert w W L. induction F; intros [|v w] W L; simpl in *; try lia; constructor.
    - inversion W; subst. apply Qmult_le_compat_r; auto.
    - inversion W; subst. apply IHF; auto. }
  lra.
Qed.
Lemma wsum_plus xs f g w : length f = length w -> length g = length w ->
  wsum xs (zip_with Qplus f g) w == wsum xs f w + wsum xs g w.
Proof.
  intros L1 L2. unfold wsum, Qsum. induction xs as [|x xs IH]; simpl; [ring|]. rewrite IH.
  assert (E : trapz (zip_with Qmult (zip_with Qplus f g) w) x == trapz (zip_with Qplus (zip_with Qmult f w) (zip_with Qmult g w)) x).
  { apply trapz_ext. clear - L1 L2. revert f g L1 L2. induction w; intros [|a' f] [|b' g] L1 L2; simpl in *; try lia; constructor.
    - ring.
    - apply IHw; lia. }
  rewrite E, trapz_add by (rewrite !zip_with_length; lia). ring.
Qed.
Lemma wsum_ext xs f g w : Forall2 Qeq f g -> wsum xs f w == wsum xs g w.
Proof.
  intros F. unfold wsum, Qsum. induction xs as [|x xs IH]; simpl; [reflexivity|]. rewrite IH.
  assert (E : trapz (zip_with Qmult f w) x == trapz (zip_with Qmult g w) x).
  { apply trapz_ext. clear - F. revert w. induction F; intros [|v w]; simpl; constructor; auto. now rewrite H. }
  now rewrite E.
Qed.
Lemma wsum_axes xs xs' f w : Forall2 (fun x x' => x' = x \/ exists s, x' = map (fun v => v + s) x) xs xs' -> wsum xs' f w == wsum xs f w.
Proof.
  intros F. unfold wsum, Qsum. induction F; simpl; [reflexivity|]. rewrite IHF.
  destruct H as [->|[s ->]]; [reflexivity|]. now rewrite trapz_shift.
Qed.

(** ** Position and width *)
Lemma sq_nonneg (a : Q) : 0 <= a * a.
Proof. unfold Qle. simpl. nia. Qed.
Lemma sq_le (a b : Q) : - b <= a -> a <= b -> a * a <= b * b.
Proof.
  intros H1 H2. assert (H : 0 <= (b - a) * (b + a)) by (apply Qmult_le_0_compat; lra).
  assert ((b - a) * (b + a) == b * b - a * a) by ring. lra.
Qed.
Lemma select_length {A B} b : forall (l1 : list A) (l2 : list B), length l1 = length l2 -> length (select b l1) = length (select b l2).
Proof. induction b as [|[] b IH]; intros [|x l1] [|y l2] H; simpl in *; try lia; auto. Qed.
Lemma select_map {A B} (f : A -> B) b : forall l, select b (map f l) = map f (select b l).
Proof. induction b as [|[] b IH]; intros [|x l]; simpl; auto. now rewrite IH. Qed.

Lemma scol_net_length d b bg k : length (acol d k) = length (a_int d) -> length (scol d b k) = length (net d b bg).
Proof. intros H. unfold scol, net. rewrite map_length. now apply select_length. Qed.

Lemma integrate_wsum d b bg : integrate d b bg true = Qsum (map (trapz (net d b bg)) (map (scol d b) (get_keys d true))).
Proof. unfold integrate, Qsum. now rewrite map_map. Qed.

Lemma const_le c f w : length f = length w -> Forall (fun x => c <= x) f -> Forall2 Qle (map (fun _ : Q => c) w) f.
Proof. intros L F. revert w L. induction F; intros [|v w] L; simpl in *; try lia; constructor; auto. Qed.
Lemma le_const c f w : length f = length w -> Forall (fun x => x <= c) f -> Forall2 Qle f (map (fun _ : Q => c) w).
Proof. intros L F. revert w L. induction F; intros [|v w] L; simpl in *; try lia; constructor; auto. Qed.

(** Moments of functions between two bounds lie between these bounds. *)
Lemma moment_bounds d b bg f v lo hi :
  moment d b bg true f = Some v -> length f = length (net d b bg) ->
  Forall (Sorted Qle) (map (scol d b) (get_keys d true)) -> Forall (fun x => 0 <= x) (net d b bg) ->
  0 < integrate d b bg true -> Forall (fun x => lo <= x /\ x <= hi) f -> lo <= v /\ v <= hi.
Proof.
  intros M L S W P F. apply moment_wsum in M. destruct M as [M _].
  set (xs := map (scol d b) (get_keys d true)) in *. rewrite (integrate_wsum d b bg) in M, P. fold xs in M, P.
  assert (C := fun c => wsum_const xs c (net d b bg)).
  assert (A1 : wsum xs (map (fun _ => lo) (net d b bg)) (net d b bg) <= wsum xs f (net d b bg)).
  { apply wsum_mono; auto; [|now rewrite map_length]. apply const_le; auto. eapply Forall_impl; [|exact F]. simpl; tauto. }
  assert (A2 : wsum xs f (net d b bg) <= wsum xs (map (fun _ => hi) (net d b bg)) (net d b bg)).
  { apply wsum_mono; auto. apply le_const; auto. eapply Forall_impl; [|exact F]. simpl; tauto. }
  rewrite C in A1, A2. split; apply (Qmult_le_r _ _ _ P); lra.
Qed.

Definition shift_col (k : key) (s : Q) (d : adata) : adata :=
  mkA (map (fun kc => if String.eqb (fst kc) k then (fst kc, map (fun v => v + s) (snd kc)) else kc) (a_cols d))
      (a_q d) (a_d d) (a_int d).

Lemma shift_keys k s d hkle : get_keys (shift_col k s d) hkle = get_keys d hkle.
Proof.
  unfold get_keys. cbn [a_cols a_q a_d shift_col]. f_equal. rewrite map_map. apply map_ext. intros [k' c]. simpl.
  destruct (String.eqb k' k); auto.
Qed.
Lemma shift_acol k s d k' : acol (shift_col k s d) k' = if String.eqb k' k then map (fun v => v + s) (acol d k') else acol d k'.
Proof.
  unfold acol. cbn [a_cols shift_col]. induction (a_cols d) as [|[a c] l IH]; simpl; [now destruct (String.eqb k' k)|].
  destruct (String.eqb_spec a k); subst; simpl.
  - destruct (String.eqb_spec k k'); subst; simpl; [now rewrite String.eqb_refl|]. auto.
  - destruct (String.eqb_spec a k'); subst; simpl; auto. destruct (String.eqb_spec k' k); [tauto|auto].
Qed.
Lemma shift_scol k s d bs k' : scol (shift_col k s d) (Some bs) k' =
  if String.eqb k' k then map (fun v => v + s) (scol d (Some bs) k') else scol d (Some bs) k'.
Proof. unfold scol. rewrite shift_acol. simpl get_bounds. destruct (String.eqb k' k); auto. now rewrite select_map. Qed.
Lemma shift_axes k s d bs l : Forall2 (fun x x' => x' = x \/ exists s, x' = map (fun v => v + s) x)
  (map (scol d (Some bs)) l) (map (scol (shift_col k s d) (Some bs)) l).
Proof.
  induction l; simpl; constructor; auto. rewrite shift_scol. destruct (String.eqb a k); eauto.
Qed.
Lemma shift_integrate k s d bs bg : integrate (shift_col k s d) (Some bs) bg true == integrate d (Some bs) bg true.
Proof.
  rewrite !integrate_wsum, shift_keys. change (net (shift_col k s d) (Some bs) bg) with (net d (Some bs) bg).
  assert (F := shift_axes k s d bs (get_keys d true)). revert F. 
  generalize (map (scol d (Some bs)) (get_keys d true)), (map (scol (shift_col k s d) (Some bs)) (get_keys d true)).
  intros xs xs' F. unfold Qsum. induction F; simpl; [reflexivity|]. rewrite IHF.
  destruct H as [->|[t ->]]; [reflexivity|]. now rewrite trapz_shift.
Qed.
Lemma shift_moment k s d bs bg hkle f g v v' : Forall2 Qeq f g ->
  moment d (Some bs) bg hkle f = Some v -> moment (shift_col k s d) (Some bs) bg hkle g = Some v' -> v' == v.
Proof.
  intros E M M'. apply moment_wsum in M. apply moment_wsum in M'. destruct M as [M N], M' as [M' N'].
  rewrite shift_integrate in M', N'. rewrite shift_keys in M'.
  rewrite (wsum_axes _ _ _ _ (shift_axes k s d bs (get_keys d hkle))) in M'.
  change (net (shift_col k s d) (Some bs) bg) with (net d (Some bs) bg) in M'.
  rewrite <- (wsum_ext _ _ _ _ E) in M'. rewrite <- M in M'.
  assert (Z : (v' - v) * integrate d (Some bs) bg true == 0) by (rewrite <- (Qplus_opp_r (v * integrate d (Some bs) bg true)); rewrite <- M' at 1; ring).
  apply Qmult_integral in Z. destruct Z; [lra|tauto].
Qed.

Lemma position_shift d bs bg k s p p' : length (acol d k) = length (a_int d) ->
  position d (Some bs) bg true k = Some p -> position (shift_col k s d) (Some bs) bg true k = Some p' -> p' == p + s.
Proof.
  unfold position. intros L M M'. rewrite shift_scol, String.eqb_refl in M'.
  apply moment_wsum in M. apply moment_wsum in M'. destruct M as [M N], M' as [M' N'].
  rewrite shift_integrate in M', N'. rewrite shift_keys in M'.
  rewrite (wsum_axes _ _ _ _ (shift_axes k s d bs (get_keys d true))) in M'.
  change (net (shift_col k s d) (Some bs) bg) with (net d (Some bs) bg) in M'.
  set (w := net d (Some bs) bg) in *. set (xs := map (scol d (Some bs)) (get_keys d true)) in *.
  assert (Lw : length (scol d (Some bs) k) = length w) by (apply scol_net_length; auto).
  assert (E : wsum xs (map (fun v => v + s) (scol d (Some bs) k)) w == wsum xs (zip_with Qplus (scol d (Some bs) k) (map (fun _ => s) w)) w).
  { apply wsum_ext. clear - Lw. revert Lw. generalize (scol d (Some bs) k). induction w; intros [|x l] L; simpl in *; try lia; constructor.
    - reflexivity.
    - apply IHw. lia. }
  rewrite E, wsum_plus, wsum_const in M' by (rewrite ?map_length; auto).
  assert (T : Qsum (map (trapz w) xs) == integrate d (Some bs) bg true) by (rewrite integrate_wsum; reflexivity).
  rewrite T in M'.
  assert (Z : (p' - (p + s)) * integrate d (Some bs) bg true == 0).
  { assert (p' * integrate d (Some bs) bg true == p * integrate d (Some bs) bg true + s * integrate d (Some bs) bg true) by (rewrite M', M; ring).
    assert ((p' - (p + s)) * integrate d (Some bs) bg true == p' * integrate d (Some bs) bg true - (p * integrate d (Some bs) bg true + s * integrate d (Some bs) bg true)) by ring.
    lra. }
  apply Qmult_integral in Z. destruct Z; [lra|tauto].
Qed.

Lemma get_keys_moment d b bg f : get_keys d true = get_keys d false -> moment d b bg false f = moment d b bg true f.
Proof. intros H. unfold moment. now rewrite H. Qed.

Lemma width_shift d bs bg k s w w' : length (acol d k) = length (a_int d) -> get_keys d true = get_keys d false ->
  width_sq d (Some bs) bg true k = Some w -> width_sq (shift_col k s d) (Some bs) bg true k = Some w' -> w' == w.
Proof.
  intros L K. unfold width_sq.
  destruct (position d (Some bs) bg false k) as [p|] eqn:Ep; [|discriminate].
  destruct (position (shift_col k s d) (Some bs) bg false k) as [p'|] eqn:Ep'; [|discriminate].
  unfold position in Ep, Ep'. rewrite get_keys_moment in Ep by auto. rewrite get_keys_moment in Ep' by (rewrite !shift_keys; auto).
  assert (P := position_shift d bs bg k s p p' L Ep Ep'). intros M M'.
  refine (shift_moment k s d bs bg true _ _ w w' _ M M').
  rewrite shift_scol, String.eqb_refl, map_map. clear - P.
  induction (scol d (Some bs) k); simpl; constructor; auto. rewrite P. ring.
Qed.

Lemma width_nonneg d b bg k w : length (acol d k) = length (a_int d) ->
  Forall (Sorted Qle) (map (scol d b) (get_keys d true)) -> Forall (fun x => 0 <= x) (net d b bg) ->
  0 < integrate d b bg true -> width_sq d b bg true k = Some w -> 0 <= w.
Proof.
  intros L S W P. unfold width_sq. destruct (position d b bg false k) as [p|]; [|discriminate]. intros M.
  set (f := map (fun x => (x - p) * (x - p)) (scol d b k)) in *.
  apply moment_wsum in M. destruct M as [M _].
  assert (A : 0 * Qsum (map (trapz (net d b bg)) (map (scol d b) (get_keys d true))) <= w * integrate d b bg true).
  { rewrite <- wsum_const, M. apply wsum_mono; auto; [|now rewrite map_length].
    apply const_le; [unfold f; rewrite map_length; now apply scol_net_length|].
    unfold f. rewrite Forall_forall. intros y Hy. apply in_map_iff in Hy. destruct Hy as (x & <- & _).
    apply sq_nonneg. }
  apply (Qmult_le_r _ _ _ P). lra.
Qed.

Lemma width_bounded d b bg k w lo hi : length (acol d k) = length (a_int d) -> get_keys d true = get_keys d false ->
  Forall (Sorted Qle) (map (scol d b) (get_keys d true)) -> Forall (fun x => 0 <= x) (net d b bg) ->
  0 < integrate d b bg true -> Forall (fun x => lo <= x /\ x <= hi) (scol d b k) ->
  width_sq d b bg true k = Some w -> w <= (hi - lo) * (hi - lo).
Proof.
  intros L K S W P F. unfold width_sq. destruct (position d b bg false k) as [p|] eqn:Ep; [|discriminate].
  unfold position in Ep. rewrite get_keys_moment in Ep by auto. intros M.
  assert (Lw := scol_net_length d b bg k L).
  destruct (moment_bounds d b bg _ p lo hi Ep Lw S W P F) as [P1 P2].
  assert (B : 0 <= w /\ w <= (hi - lo) * (hi - lo)).
  { apply (moment_bounds d b bg _ w 0 ((hi - lo) * (hi - lo)) M); auto; [now rewrite map_length|].
    rewrite Forall_forall in *. intros y Hy. apply in_map_iff in Hy. destruct Hy as (x & <- & Hx).
    specialize (F x Hx). destruct F. split; [apply sq_nonneg|]. apply sq_le; lra. }
  tauto.
Qed.

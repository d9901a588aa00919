(** Proofs about symmetry operations: equality modulo lattice translations, the generation loop. *)
From Coq Require Import String Ascii List ZArith QArith Qround Bool Lia Lqa Setoid Morphisms.
From Verif Require Import Base SymData SymModel.
Import ListNotations.
Local Open Scope Q_scope.

(** ** Rationals modulo 1 *)
Definition qcong (x y : Q) : Prop := exists n : Z, x == y + inject_Z n.
Lemma qcong_refl x : qcong x x.
Proof. exists 0%Z. change (inject_Z 0) with 0. lra. Qed.
Lemma qcong_sym x y : qcong x y -> qcong y x.
Proof. intros [n H]. exists (- n)%Z. rewrite inject_Z_opp. lra. Qed.
Lemma qcong_trans x y z : qcong x y -> qcong y z -> qcong x z.
Proof. intros [n H] [m K]. exists (n + m)%Z. rewrite inject_Z_plus. lra. Qed.
Lemma qcong_eq x y : x == y -> qcong x y.
Proof. intros H. exists 0%Z. change (inject_Z 0) with 0. lra. Qed.
Lemma qcong_plus x y u v : qcong x y -> qcong u v -> qcong (x + u) (y + v).
Proof. intros [n H] [m K]. exists (n + m)%Z. rewrite inject_Z_plus. lra. Qed.
Lemma qcong_zmult a x y : qcong x y -> qcong (inject_Z a * x) (inject_Z a * y).
Proof. intros [n H]. exists (a * n)%Z. rewrite inject_Z_mult, H. ring. Qed.

Lemma mod1_cong x : qcong (mod1 x) x.
Proof. exists (- Qfloor x)%Z. unfold mod1. rewrite Qred_correct, inject_Z_opp. lra. Qed.
Lemma mod1_range x : 0 <= mod1 x /\ mod1 x < 1.
Proof.
  unfold mod1. rewrite Qred_correct. assert (A := Qfloor_le x). assert (B := Qlt_floor x).
  rewrite inject_Z_plus in B. change (inject_Z 1) with 1 in B. lra.
Qed.
Lemma mod1_eq x y : qcong x y -> mod1 x = mod1 y.
Proof.
  intros [n H]. unfold mod1. apply Qred_complete.
  assert (E : Qfloor x = (Qfloor y + n)%Z).
  { apply Z.le_antisymm.
    - apply Z.lt_succ_r. rewrite Zlt_Qlt. unfold Z.succ. rewrite !inject_Z_plus. change (inject_Z 1) with 1.
      assert (A := Qfloor_le x). assert (B := Qlt_floor y). rewrite inject_Z_plus in B. change (inject_Z 1) with 1 in B. lra.
    - apply Z.lt_succ_r. rewrite Zlt_Qlt. unfold Z.succ. rewrite !inject_Z_plus. change (inject_Z 1) with 1.
      assert (A := Qfloor_le y). assert (B := Qlt_floor x). rewrite inject_Z_plus in B. change (inject_Z 1) with 1 in B. lra. }
  rewrite E, inject_Z_plus. lra.
Qed.
Lemma mod1_cong_iff x y : mod1 x = mod1 y <-> qcong x y.
Proof.
  split; [|apply mod1_eq]. intros H. apply qcong_trans with (mod1 x); [apply qcong_sym, mod1_cong|]. rewrite H. apply mod1_cong.
Qed.
Lemma mod1_idem x : mod1 (mod1 x) = mod1 x.
Proof. apply mod1_eq, mod1_cong. Qed.

(** ** Operations modulo lattice translations *)
Definition same_rot (a b : op) : Prop :=
  r11 a = r11 b /\ r12 a = r12 b /\ r13 a = r13 b /\ r21 a = r21 b /\ r22 a = r22 b /\ r23 a = r23 b /\
  r31 a = r31 b /\ r32 a = r32 b /\ r33 a = r33 b.
Definition eqv (a b : op) : Prop :=
  same_rot a b /\ qcong (t1 a) (t1 b) /\ qcong (t2 a) (t2 b) /\ qcong (t3 a) (t3 b).

Lemma eqv_refl a : eqv a a.
Proof. repeat split; apply qcong_refl. Qed.
Lemma eqv_sym a b : eqv a b -> eqv b a.
Proof. intros ((?&?&?&?&?&?&?&?&?) & ? & ? & ?). unfold eqv, same_rot. intuition auto using qcong_sym. Qed.
Lemma eqv_trans a b c : eqv a b -> eqv b c -> eqv a c.
Proof.
  intros ((?&?&?&?&?&?&?&?&?) & ? & ? & ?) ((?&?&?&?&?&?&?&?&?) & ? & ? & ?). unfold eqv, same_rot.
  intuition (try congruence; eauto using qcong_trans).
Qed.
Lemma reduce_eqv o : eqv (reduce o) o.
Proof. repeat split; apply mod1_cong. Qed.
Lemma eqv_reduce a b : eqv a b <-> reduce a = reduce b.
Proof.
  split.
  - intros ((?&?&?&?&?&?&?&?&?) & T1 & T2 & T3). unfold reduce. rewrite (mod1_eq _ _ T1), (mod1_eq _ _ T2), (mod1_eq _ _ T3). congruence.
  - intros H. eapply eqv_trans; [apply eqv_sym, reduce_eqv|]. rewrite H. apply reduce_eqv.
Qed.
Lemma reduce_idem o : reduce (reduce o) = reduce o.
Proof. apply eqv_reduce, reduce_eqv. Qed.

Lemma rowdot_cong a b c x y z x' y' z' : qcong x x' -> qcong y y' -> qcong z z' ->
  qcong (rowdot a b c x y z) (rowdot a b c x' y' z').
Proof. intros. unfold rowdot. repeat apply qcong_plus; now apply qcong_zmult. Qed.
Lemma mul_compat a a' b b' : eqv a a' -> eqv b b' -> eqv (mulop a b) (mulop a' b').
Proof.
  intros ((E1&E2&E3&E4&E5&E6&E7&E8&E9) & ? & ? & ?) ((F1&F2&F3&F4&F5&F6&F7&F8&F9) & ? & ? & ?).
  unfold eqv, same_rot, mulop; cbn [r11 r12 r13 r21 r22 r23 r31 r32 r33 t1 t2 t3].
  rewrite E1, E2, E3, E4, E5, E6, E7, E8, E9, F1, F2, F3, F4, F5, F6, F7, F8, F9.
  repeat split; apply qcong_plus; auto; now apply rowdot_cong.
Qed.
Lemma mul_assoc a b c : eqv (mulop a (mulop b c)) (mulop (mulop a b) c).
Proof.
  unfold eqv, same_rot, mulop; cbn [r11 r12 r13 r21 r22 r23 r31 r32 r33 t1 t2 t3].
  repeat split; try ring; apply qcong_eq; unfold rowdot; rewrite !inject_Z_plus, !inject_Z_mult; ring.
Qed.
Lemma mul_id_l a : eqv (mulop idop a) a.
Proof.
  unfold eqv, same_rot, mulop; cbn [idop r11 r12 r13 r21 r22 r23 r31 r32 r33 t1 t2 t3].
  repeat split; try ring; apply qcong_eq; unfold rowdot, inject_Z; ring.
Qed.
Lemma mul_id_r a : eqv (mulop a idop) a.
Proof.
  unfold eqv, same_rot, mulop; cbn [idop r11 r12 r13 r21 r22 r23 r31 r32 r33 t1 t2 t3].
  repeat split; try ring; apply qcong_eq; unfold rowdot; ring.
Qed.

(** ** The comparison of the code *)
Lemma op_eqb_eqv a b : op_eqb a b = true -> eqv a b.
Proof.
  unfold op_eqb, rot_eqb. intros H.
  repeat (apply andb_prop in H; let K := fresh in destruct H as [H K]; try apply Z.eqb_eq in K; try apply Qeq_bool_iff in K).
  apply Z.eqb_eq in H. unfold eqv, same_rot. repeat split; auto using qcong_eq.
Qed.
Lemma op_eqb_refl a : op_eqb a a = true.
Proof.
  unfold op_eqb, rot_eqb. rewrite !Z.eqb_refl. cbn [andb].
  assert (R : forall q, Qeq_bool q q = true) by (intros; apply Qeq_bool_iff; reflexivity). now rewrite !R.
Qed.
Definition canon (o : op) : Prop := reduce o = o.
Lemma canon_eqv a b : canon a -> canon b -> eqv a b -> a = b.
Proof. unfold canon. intros A B E. apply eqv_reduce in E. congruence. Qed.
Lemma op_eqb_canon a b : canon a -> canon b -> (op_eqb a b = true <-> a = b).
Proof. intros A B. split; [intros H; apply canon_eqv; auto using op_eqb_eqv|intros ->; apply op_eqb_refl]. Qed.
Lemma op_in_eqv o l : op_in o l = true -> exists q, In q l /\ eqv o q.
Proof. unfold op_in. rewrite existsb_exists. intros (q & I & E). eauto using op_eqb_eqv. Qed.
Lemma op_in_canon o l : canon o -> Forall canon l -> (op_in o l = true <-> In o l).
Proof.
  intros C F. rewrite Forall_forall in F. unfold op_in. rewrite existsb_exists. split.
  - intros (q & I & E). apply op_eqb_canon in E; auto. now subst.
  - intros I. exists o. split; auto. apply op_eqb_refl.
Qed.
Lemma op_in_app o l r : op_in o l = true -> op_in o (l ++ r) = true.
Proof. unfold op_in. rewrite existsb_app. intros ->. reflexivity. Qed.
Lemma op_in_last o l : op_in o (l ++ [o]) = true.
Proof. unfold op_in. rewrite existsb_app. cbn [existsb]. rewrite op_eqb_refl. now rewrite orb_true_r. Qed.

(** ** The loop *)
Lemma NoDup_snoc {A} (l : list A) x : NoDup l -> ~ In x l -> NoDup (l ++ [x]).
Proof.
  induction l as [|y l IH]; intros N I; cbn; [constructor; auto; constructor|].
  inversion N; subst. constructor; [|apply IH; auto; intros K; apply I; now right].
  rewrite in_app_iff. cbn. intros [K|[->|[]]]; auto. apply I. now left.
Qed.
Lemma add_ops_spec l : forall st, exists suf,
  fold_left add_op l st = ((fst st ++ suf)%list, (snd st ++ suf)%list) /\
  (forall o, In o l -> op_in (reduce o) (fst st ++ suf) = true) /\
  (forall o, In o suf -> exists p, In p l /\ o = reduce p) /\
  (Forall canon (fst st) -> NoDup (fst st) -> NoDup (fst st ++ suf)).
Proof.
  induction l as [|x l IH]; intros st; cbn [fold_left].
  - exists []. rewrite !app_nil_r. destruct st; repeat split; auto; try (cbn; tauto).
  - unfold add_op at 2. destruct (op_in (reduce x) (fst st)) eqn:E.
    + destruct (IH st) as (suf & H1 & H2 & H3 & H4). exists suf. repeat split; auto.
      * intros o [<-|I]; auto using op_in_app.
      * intros o I. destruct (H3 o I) as (p & ? & ?). exists p. split; [now right|auto].
    + destruct (IH ((fst st ++ [reduce x])%list, (snd st ++ [reduce x])%list)) as (suf & H1 & H2 & H3 & H4). cbn [fst snd] in *.
      exists (reduce x :: suf). replace ((fst st ++ reduce x :: suf)%list) with (((fst st ++ [reduce x]) ++ suf)%list) by (now rewrite <- app_assoc).
      repeat split.
      * rewrite H1. f_equal. now rewrite <- app_assoc.
      * intros o [<-|I]; auto using op_in_app, op_in_last.
      * intros o [<-|I]; [exists x; split; [now left|auto]|]. destruct (H3 o I) as (p & ? & ?). exists p. split; [now right|auto].
      * intros C N. apply H4.
        -- apply Forall_app. split; auto. constructor; auto. apply reduce_idem.
        -- apply NoDup_snoc; auto. intros I. apply (op_in_canon (reduce x) (fst st)) in I; auto; [congruence|apply reduce_idem].
Qed.

Lemma round_spec new : forall st, exists suf,
  fold_left times new st = ((fst st ++ suf)%list, (snd st ++ suf)%list) /\
  (forall g s, In g new -> In s (fst st) -> op_in (reduce (mulop s g)) (fst st ++ suf) = true) /\
  (forall P : op -> Prop, (forall a, P a -> P (reduce a)) -> (forall a b, P a -> P b -> P (mulop a b)) ->
     Forall P (fst st) -> Forall P new -> Forall P suf) /\
  Forall canon suf /\
  (Forall canon (fst st) -> NoDup (fst st) -> NoDup (fst st ++ suf)).
Proof.
  induction new as [|g new IH]; intros st; cbn [fold_left].
  - exists []. rewrite !app_nil_r. destruct st. repeat split; auto; try (cbn; tauto).
  - unfold times at 2. destruct (add_ops_spec (map (fun s => mulop s g) (fst st)) st) as (s1 & A1 & A2 & A3 & A4). rewrite A1.
    destruct (IH ((fst st ++ s1)%list, (snd st ++ s1)%list)) as (s2 & B1 & B2 & B3 & B4 & B5). cbn [fst snd] in *.
    assert (C1 : Forall canon s1).
    { apply Forall_forall. intros o I. destruct (A3 o I) as (p & _ & ->). apply reduce_idem. }
    exists (s1 ++ s2)%list. rewrite !app_assoc. repeat split; auto.
    + intros g' s [<-|I] Is; [|apply B2; auto; rewrite in_app_iff; auto].
      apply op_in_app. apply A2. now apply (in_map (fun s => mulop s g)).
    + intros P Pr Pm Fs Fn. inversion Fn; subst.
      assert (F1 : Forall P s1).
      { apply Forall_forall. intros o I. destruct (A3 o I) as (p & Ip & ->). apply in_map_iff in Ip. destruct Ip as (s & <- & Is).
        rewrite Forall_forall in Fs. auto. }
      apply Forall_app. split; auto. apply B3; auto. apply Forall_app. auto.
    + apply Forall_app. auto.
    + intros C N. apply B5; [apply Forall_app; auto|now apply A4].
Qed.

Lemma closure_unfold f total symm new : new <> [] -> (length symm < total)%nat ->
  exists suf, closure (S f) total symm new = closure f total (symm ++ suf) suf /\
  (forall g s, In g new -> In s symm -> op_in (reduce (mulop s g)) (symm ++ suf) = true) /\
  (forall P : op -> Prop, (forall a, P a -> P (reduce a)) -> (forall a b, P a -> P b -> P (mulop a b)) ->
     Forall P symm -> Forall P new -> Forall P suf) /\
  Forall canon suf /\ (Forall canon symm -> NoDup symm -> NoDup (symm ++ suf)).
Proof.
  intros N L. destruct (round_spec new (symm, [])) as (suf & H1 & H2 & H3 & H4 & H5). cbn [fst snd app] in *.
  exists suf. split; [|auto]. cbn [closure]. destruct new; [congruence|].
  apply Nat.ltb_lt in L. rewrite L, H1. reflexivity.
Qed.
Lemma closure_stop f total symm new : new = [] \/ (total <= length symm)%nat -> closure f total symm new = Some symm.
Proof.
  intros [->|L]; [destruct f; reflexivity|]. destruct f; cbn [closure]; destruct new; auto; apply Nat.ltb_ge in L; now rewrite L.
Qed.

Lemma closure_terminates f : forall total symm new, (total < length symm + f)%nat -> closure f total symm new <> None.
Proof.
  induction f as [|f IH]; intros total symm new L.
  - rewrite closure_stop by (right; lia). discriminate.
  - destruct new as [|n new]; [rewrite closure_stop by auto; discriminate|].
    destruct (Nat.le_gt_cases total (length symm)) as [K|K]; [rewrite closure_stop by auto; discriminate|].
    destruct (closure_unfold f total symm (n :: new)) as (suf & -> & _); auto; [discriminate|].
    destruct suf as [|x suf]; [rewrite closure_stop by auto; discriminate|].
    apply IH. rewrite app_length. cbn [length]. lia.
Qed.

(** Everything invariant under products holds of the result; it extends the generators. *)
Lemma closure_inv f : forall total symm new l, closure f total symm new = Some l ->
  (exists suf, l = (symm ++ suf)%list) /\
  (forall P : op -> Prop, (forall a, P a -> P (reduce a)) -> (forall a b, P a -> P b -> P (mulop a b)) ->
     Forall P symm -> Forall P new -> Forall P l) /\
  (Forall canon symm -> Forall canon l) /\
  (Forall canon symm -> NoDup symm -> NoDup l).
Proof.
  induction f as [|f IH]; intros total symm new l H.
  - cbn [closure] in H. destruct new; [|destruct (Nat.ltb (length symm) total); [discriminate|]]; inversion H; subst;
      (split; [exists []; now rewrite app_nil_r|auto]).
  - destruct new as [|n new].
    { rewrite closure_stop in H by auto. inversion H; subst. split; [exists []; now rewrite app_nil_r|auto]. }
    destruct (Nat.le_gt_cases total (length symm)) as [K|K].
    { rewrite closure_stop in H by auto. inversion H; subst. split; [exists []; now rewrite app_nil_r|auto]. }
    destruct (closure_unfold f total symm (n :: new)) as (suf & E & _ & P2 & P3 & P4); auto; [discriminate|].
    rewrite E in H. destruct (IH _ _ _ _ H) as ((s2 & ->) & Q1 & Q2 & Q3). split; [exists (suf ++ s2)%list; now rewrite app_assoc|].
    split; [|split].
    + intros P Pr Pm Fs Fn. assert (Forall P suf) by (now apply P2). apply Q1; auto. apply Forall_app. auto.
    + intros C. apply Q2. apply Forall_app. auto.
    + intros C N. apply Q3; [apply Forall_app; auto|auto].
Qed.

(** If the loop stops because nothing new was found, the result is closed under multiplication by the
    generators from the left. *)
Lemma closure_closed gens f : forall total old new l,
  closure f total (old ++ new) new = Some l -> (length l < total)%nat ->
  (forall g, In g gens -> In g (old ++ new)) ->
  (forall g y, In g gens -> In y old -> op_in (reduce (mulop g y)) (old ++ new) = true) ->
  forall g y, In g gens -> In y l -> op_in (reduce (mulop g y)) l = true.
Proof.
  induction f as [|f IH]; intros total old new l H L G O.
  - cbn [closure] in H. destruct new as [|n new].
    { inversion H; subst. rewrite app_nil_r in *. auto. }
    destruct (Nat.ltb (length (old ++ n :: new)) total) eqn:E; [discriminate|]. inversion H; subst. apply Nat.ltb_ge in E. lia.
  - destruct new as [|n new].
    { rewrite closure_stop in H by auto. inversion H; subst. rewrite app_nil_r in *. auto. }
    destruct (Nat.le_gt_cases total (length (old ++ n :: new))) as [K|K].
    { rewrite closure_stop in H by auto. inversion H; subst. lia. }
    destruct (closure_unfold f total (old ++ n :: new) (n :: new)) as (suf & E & P1 & _); auto; [discriminate|].
    rewrite E in H. apply (IH _ _ _ _ H); auto.
    + intros g I. rewrite in_app_iff. auto.
    + intros g y Ig Iy. rewrite in_app_iff in Iy. destruct Iy as [Iy|Iy]; [apply op_in_app; auto|]. apply P1; auto.
Qed.

(** ** Finite groups of operations (canonical representatives) *)
Definition star (a b : op) : op := reduce (mulop a b).
Lemma star_canon a b : canon (star a b).
Proof. apply reduce_idem. Qed.
Lemma star_assoc a b c : star a (star b c) = star (star a b) c.
Proof.
  apply eqv_reduce. eapply eqv_trans; [apply mul_compat; [apply eqv_refl|apply reduce_eqv]|].
  eapply eqv_trans; [apply mul_assoc|]. apply mul_compat; [apply eqv_sym, reduce_eqv|apply eqv_refl].
Qed.
Lemma star_id_l a : canon a -> star idop a = a.
Proof. intros C. transitivity (reduce a); [apply eqv_reduce, mul_id_l|exact C]. Qed.
Lemma star_id_r a : canon a -> star a idop = a.
Proof. intros C. transitivity (reduce a); [apply eqv_reduce, mul_id_r|exact C]. Qed.

Record is_group (l : list op) : Prop := {
  gr_canon : Forall canon l;
  gr_nodup : NoDup l;
  gr_id : In idop l;
  gr_mul : forall a b, In a l -> In b l -> In (star a b) l;
  gr_inv : forall a, In a l -> exists b, In b l /\ star a b = idop /\ star b a = idop }.

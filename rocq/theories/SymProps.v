(** Properties of symmetry operations and space groups (C26, C27, C29, C30). *)
From Coq Require Import String Ascii List ZArith QArith Qround Bool Lia Lqa.
From Verif Require Import Base SymData SymModel SymProof SymGroup.
Import ListNotations.
Local Open Scope Q_scope.

(** The group properties, modulo lattice translations ([eqv]: same rotation, translations differing by
    integers). *)
Definition group_mod_lattice (ops : list op) : Prop :=
  (forall i j, (i < j < length ops)%nat -> ~ eqv (nth i ops idop) (nth j ops idop)) /\
  (exists i, In i ops /\ eqv i idop) /\
  (forall a b, In a ops -> In b ops -> exists c, In c ops /\ eqv (mulop a b) c) /\
  (forall a, In a ops -> exists b, In b ops /\ eqv (mulop a b) idop /\ eqv (mulop b a) idop).
Definition translations_reduced (ops : list op) : Prop :=
  forall o, In o ops -> (0 <= t1 o /\ t1 o < 1) /\ (0 <= t2 o /\ t2 o < 1) /\ (0 <= t3 o /\ t3 o < 1).

Lemma is_group_mod l : is_group l -> group_mod_lattice l /\ translations_reduced l.
Proof.
  intros [C N I M V]. rewrite Forall_forall in C. split; [split; [|split; [|split]]|].
  - intros i j L E. assert (nth i l idop = nth j l idop).
    { apply canon_eqv; auto; apply C, nth_In; lia. }
    assert (i = j) by (apply (proj1 (NoDup_nth l idop) N i j); auto; lia). lia.
  - exists idop. split; auto. apply eqv_refl.
  - intros a b Ia Ib. exists (star a b). split; auto. apply eqv_sym, reduce_eqv.
  - intros a Ia. destruct (V a Ia) as (b & Ib & E1 & E2). exists b. split; auto.
    split; (eapply eqv_trans; [apply eqv_sym, reduce_eqv|]).
    + change (eqv (star a b) idop). rewrite E1. apply eqv_refl.
    + change (eqv (star b a) idop). rewrite E2. apply eqv_refl.
  - intros o Io. assert (E := C o Io). unfold canon, reduce in E.
    assert (E1 := f_equal t1 E). assert (E2 := f_equal t2 E). assert (E3 := f_equal t3 E). cbn [t1 t2 t3] in *.
    rewrite <- E1, <- E2, <- E3. repeat split; apply mod1_range.
Qed.

(** C26.  Each of the 230 tabulated groups can be built; its operations are a group modulo lattice
    translations, of exactly the tabulated order. *)
Theorem C26_space_groups : length table = 230%nat /\ forall e, In e table -> exists g,
  space_group (SInt (e_number e)) = Ok g /\ g_total g = e_total e /\
  length (g_ops g) = e_total e /\ group_mod_lattice (g_ops g) /\ translations_reduced (g_ops g).
Proof.
  split; [reflexivity|]. intros e I.
  destruct (named_group None (SInt (e_number e)) e I eq_refl) as (gens & ops & H & _ & _ & G & L).
  exists (loaded e gens ops). split; [exact H|]. split; auto. split; auto. now apply is_group_mod.
Qed.
Print Assumptions C26_space_groups.
Example C26_ex : exists g, space_group (SInt 225) = Ok g /\ length (g_ops g) = 192%nat.
Proof. destruct (space_group (SInt 225)) as [g|] eqn:E; [exists g; split; auto|]; vm_compute in E; [|discriminate]. inversion E. reflexivity. Qed.

(** C26.  Every tabulated generator is among the operations and every operation is a product of them. *)
Theorem C26_generated : forall e g, In e table -> space_group (SInt (e_number e)) = Ok g ->
  (forall o, In o (g_generators g) -> In o (g_ops g)) /\
  (forall o, In o (g_ops g) -> exists p, product (g_generators g) p /\ eqv o p).
Proof.
  intros e g I H. destruct (named_group None (SInt (e_number e)) e I eq_refl) as (gens & ops & H' & _ & O & _ & _).
  assert (E : Ok g = Ok (loaded e gens ops)) by (rewrite <- H, <- H'; reflexivity). inversion E; subst g. cbn [g_generators g_ops loaded].
  destruct (product_inv _ _ _ O) as (_ & P & suf & ->). split; [intros; rewrite in_app_iff; auto|]. now apply Forall_forall.
Qed.
Print Assumptions C26_generated.

(** ** C29 *)
(** C29.  A group can be selected by number, key, Hermann-Mauguin symbol or full name, with one result;
    the reported fields are those of the table. *)
Theorem C29_any_name : forall e, In e table -> exists g,
  space_group (SInt (e_number e)) = Ok g /\ space_group (SStr (e_key e)) = Ok g /\
  space_group (SStr (e_hm e)) = Ok g /\ space_group (SStr (e_full e)) = Ok g /\
  g_symbol g = e_key e /\ g_number g = e_number e /\ g_hm g = e_hm e /\ g_full_name g = e_full e /\
  g_total g = e_total e /\ g_point_group g = e_pg e /\ g_lattice_type g = e_type e /\ g_string_generators g = e_gens e.
Proof.
  intros e I.
  destruct (named_group None (SInt (e_number e)) e I eq_refl) as (gens & ops & H & G & O & _ & _).
  assert (A : forall a, denotes a e -> space_group a = Ok (loaded e gens ops)).
  { intros a D. destruct (named_group None a e I D) as (gens' & ops' & H' & G' & O' & _ & _).
    assert (gens' = gens) by congruence. subst. assert (ops' = ops) by congruence. subst. exact H'. }
  exists (loaded e gens ops). repeat split; apply A; cbn; auto.
Qed.
Print Assumptions C29_any_name.

(** C29.  Two entries never share a number or a name. *)
Theorem C29_no_alias : forall a e e', In e table -> In e' table -> denotes a e -> denotes a e' -> e = e'.
Proof.
  intros a e e' I I' D D'. destruct a as [n|s|]; cbn [denotes] in D, D'; [|eapply names_disjoint; eauto|tauto].
  eapply NoDup_map_inj; eauto; [apply numbers_nodup|congruence].
Qed.
Print Assumptions C29_no_alias.

(** C29.  Constructing a group from anything else raises. *)
Theorem C29_unknown : forall a, (forall e, In e table -> ~ denotes a e) ->
  space_group a = Err (match a with SOther => KeyError | _ => AttributeError end).
Proof.
  intros a D. unfold space_group. destruct a as [n|s|]; [| |reflexivity]; rewrite select_none by (auto; discriminate); reflexivity.
Qed.
Print Assumptions C29_unknown.
Example C29_unknown_ex : forall e, In e table -> ~ denotes (SStr "Pm-3m ") e.
Proof.
  assert (C : forallb (fun e => negb (mem "Pm-3m "%string (names e))) table = true) by (vm_compute; reflexivity).
  intros e I D. rewrite forallb_forall in C. specialize (C e I). apply negb_true_iff in C. unfold mem in C. cbn in D.
  assert (existsb (String.eqb "Pm-3m ") (names e) = true); [|congruence]. apply existsb_exists. exists "Pm-3m "%string. split; auto.
Qed.

(** C29.  Assigning a known name to symbol switches the group. *)
Theorem C29_assign_known : forall g a e, In e table -> denotes a e -> set_symbol g a = space_group (SInt (e_number e)).
Proof.
  intros g a e I D. unfold set_symbol, space_group. rewrite (select_some _ a e) by auto.
  rewrite (select_some None (SInt (e_number e)) e) by (auto; reflexivity). reflexivity.
Qed.
Print Assumptions C29_assign_known.
(** C29.  Assigning an unknown name or number to symbol is not rejected: the object keeps its group, whichever it is. *)
Theorem C29_assign_unknown : forall a e g, a <> SOther -> (forall e, In e table -> ~ denotes a e) ->
  In e table -> space_group (SInt (e_number e)) = Ok g -> set_symbol g a = Ok g.
Proof.
  intros a e g N D I H.
  destruct (named_group None (SInt (e_number e)) e I eq_refl) as (gens & ops & H' & G & O & _ & _).
  assert (E : Ok g = Ok (loaded e gens ops)) by (rewrite <- H, <- H'; reflexivity). inversion E; subst g; clear E.
  unfold set_symbol. rewrite select_none; [|exact N|exact D]. cbn [g_symbol loaded bind].
  unfold load. rewrite by_key_some by auto. rewrite G. cbn [bind]. rewrite O. reflexivity.
Qed.
Print Assumptions C29_assign_unknown.
(** C29.  So a misspelt name goes unnoticed. *)
Theorem C29_assign_unknown_refuted : exists s, (forall e, In e table -> ~ denotes (SStr s) e) /\
  forall e g, In e table -> space_group (SInt (e_number e)) = Ok g -> set_symbol g (SStr s) = Ok g.
Proof.
  exists "Pm-3m "%string. split; [exact C29_unknown_ex|]. intros e g I H.
  destruct (named_group None (SInt (e_number e)) e I eq_refl) as (gens & ops & H' & G & O & _ & _).
  assert (E : Ok g = Ok (loaded e gens ops)) by (rewrite <- H, <- H'; reflexivity). inversion E; subst g; clear E.
  unfold set_symbol. rewrite select_none; [|discriminate|exact C29_unknown_ex]. cbn [g_symbol loaded bind].
  unfold load. rewrite by_key_some by auto. rewrite G. cbn [bind]. rewrite O. reflexivity.
Qed.
Print Assumptions C29_assign_unknown_refuted.

(** ** C30 *)
(** C30.  For any generators: the procedure stops, and what it returns starts with the generators,
    has the required number of elements, and consists of products of generators. *)
Theorem C30_products : forall gens total,
  match operations gens total with
  | Ok ops => length ops = total /\ (forall g, In g gens -> In g ops) /\
              (forall o, In o ops -> exists p, product gens p /\ eqv o p)
  | Err e => e = AssertionError
  end.
Proof.
  intros gens total. destruct (operations gens total) as [ops|e] eqn:O.
  - destruct (product_inv _ _ _ O) as (L & P & suf & ->). split; auto. split; [intros; rewrite in_app_iff; auto|]. now apply Forall_forall.
  - unfold operations in O. destruct (closure (S total) total gens gens) eqn:C; [destruct (Nat.eqb (length l) total); congruence|].
    exfalso. apply (closure_terminates (S total) total gens gens); [lia|auto].
Qed.
Print Assumptions C30_products.

Definition reduced (o : op) : Prop := reduce o = o.
(** C30.  If no product of the generators is missing for want of room - they form at most [total]
    classes modulo lattice translations - a successful result is all of them, without repetition, and
    so is closed under composition.  The generators are given with reduced translations, each once. *)
Theorem C30_closed : forall gens total ops classes, operations gens total = Ok ops ->
  NoDup gens -> (forall g, In g gens -> reduced g) ->
  (length classes <= total)%nat -> (forall p, product gens p -> exists q, In q classes /\ eqv p q) ->
  (forall p, product gens p -> exists o, In o ops /\ eqv p o) /\
  (forall a b, In a ops -> In b ops -> exists c, In c ops /\ eqv (mulop a b) c) /\
  (forall i j, (i < j < length ops)%nat -> ~ eqv (nth i ops idop) (nth j ops idop)).
Proof.
  intros gens total ops classes O N R L Cov. destruct (product_inv _ _ _ O) as (Ln & P & _).
  unfold operations in O. destruct (closure (S total) total gens gens) as [l|] eqn:C; [|discriminate].
  destruct (Nat.eqb (length l) total); [|discriminate]. inversion O; subst l; clear O.
  destruct (closure_inv _ _ _ _ _ C) as (_ & _ & Fc & Nd).
  assert (Cg : Forall canon gens) by (apply Forall_forall; exact R). specialize (Fc Cg). specialize (Nd Cg N).
  rewrite Forall_forall in P, Fc.
  assert (Sub : incl ops (map reduce classes)).
  { intros o Io. destruct (P o Io) as (p & Pp & Ep). destruct (Cov p Pp) as (q & Iq & Eq).
    rewrite <- (Fc o Io). assert (reduce o = reduce q) by (apply eqv_reduce; eapply eqv_trans; eauto). rewrite H. now apply in_map. }
  assert (Sup : incl (map reduce classes) ops).
  { apply NoDup_length_incl; auto. rewrite map_length. lia. }
  assert (All : forall p, product gens p -> exists o, In o ops /\ eqv p o).
  { intros p Pp. destruct (Cov p Pp) as (q & Iq & Eq). exists (reduce q). split; [apply Sup; now apply in_map|].
    eapply eqv_trans; [exact Eq|apply eqv_sym, reduce_eqv]. }
  split; auto. split.
  - intros a b Ia Ib. destruct (P a Ia) as (p & Pp & Ep). destruct (P b Ib) as (q & Pq & Eq).
    destruct (All (mulop p q)) as (o & Io & Eo); [now constructor|]. exists o. split; auto.
    eapply eqv_trans; [|exact Eo]. now apply mul_compat.
  - intros i j K E. assert (nth i ops idop = nth j ops idop) by (apply canon_eqv; auto; apply Fc, nth_In; lia).
    assert (i = j) by (apply (proj1 (NoDup_nth ops idop) Nd i j); auto; lia). lia.
Qed.
Print Assumptions C30_closed.

(** C30.  If the loop runs out of new operations before reaching the required number (the assertion
    then fails), what it has is closed under composition. *)
Theorem C30_stops_closed : forall gens total l, closure (S total) total gens gens = Some l -> (length l < total)%nat ->
  forall a b, In a l -> In b l -> exists c, In c l /\ eqv (mulop a b) c.
Proof.
  intros gens total l C L.
  assert (K := closure_closed gens (S total) total [] gens l C L (fun g I => I) (fun g y _ I => False_ind _ I)).
  destruct (closure_inv _ _ _ _ _ C) as (_ & P & _).
  assert (Pr : Forall (fun o => exists p, product gens p /\ eqv o p) l).
  { apply P.
    - intros a (p & Pp & Ep). exists p. split; auto. eapply eqv_trans; [apply reduce_eqv|auto].
    - intros a b (p & Pp & Ep) (q & Pq & Eq). exists (mulop p q). split; [now constructor|now apply mul_compat].
    - apply Forall_forall. intros o I. exists o. split; [now constructor|apply eqv_refl].
    - apply Forall_forall. intros o I. exists o. split; [now constructor|apply eqv_refl]. }
  rewrite Forall_forall in Pr.
  assert (Q : forall p, product gens p -> forall b, In b l -> exists c, In c l /\ eqv (mulop p b) c).
  { intros p Pp. induction Pp as [g I|p q Pp IHp Pq IHq]; intros b Ib.
    - destruct (op_in_eqv _ _ (K g b I Ib)) as (c & Ic & Ec). exists c. split; auto. eapply eqv_trans; [apply eqv_sym, reduce_eqv|auto].
    - destruct (IHq b Ib) as (c & Ic & Ec). destruct (IHp c Ic) as (d & Id & Ed). exists d. split; auto.
      eapply eqv_trans; [apply eqv_sym, mul_assoc|]. eapply eqv_trans; [|exact Ed]. apply mul_compat; [apply eqv_refl|auto]. }
  intros a b Ia Ib. destruct (Pr a Ia) as (p & Pp & Ep). destruct (Q p Pp b Ib) as (c & Ic & Ec). exists c. split; auto.
  eapply eqv_trans; [|exact Ec]. apply mul_compat; [auto|apply eqv_refl].
Qed.
Print Assumptions C30_stops_closed.

(** A fourfold rotation about z. *)
Definition four : op := mkOp 0 (-1) 0 1 0 0 0 0 1 0 0 0.
Example C30_ex : exists ops, operations [four] 4 = Ok ops /\ (length ops = 4)%nat /\ NoDup [four] /\ reduced four.
Proof. eexists. split; [vm_compute; reflexivity|]. split; [reflexivity|]. split; [constructor; [intros []|constructor]|reflexivity]. Qed.
Example C30_stops_ex : exists l, closure 8 7 [four] [four] = Some l /\ (length l < 7)%nat.
Proof. eexists. split; [vm_compute; reflexivity|]. vm_compute. lia. Qed.

(** C30.  A required number that is too small can go unnoticed: the result is not closed. *)
Theorem C30_wrong_total_refuted : exists gens total ops a b, operations gens total = Ok ops /\ In a ops /\ In b ops /\
  forall c, In c ops -> ~ eqv (mulop a b) c.
Proof.
  exists [four], 2%nat. eexists. exists four, (mulop four four). split; [vm_compute; reflexivity|].
  split; [left; reflexivity|]. split; [right; left; reflexivity|].
  intros c [<-|[<-|[]]] (R & _); destruct R as (H & G & _); vm_compute in H, G; discriminate.
Qed.
Print Assumptions C30_wrong_total_refuted.
(** C30.  Repeated generators are kept twice. *)
Theorem C30_duplicate_generators_refuted : exists gens total ops, operations gens total = Ok ops /\
  ~ (forall i j, (i < j < length ops)%nat -> ~ eqv (nth i ops idop) (nth j ops idop)).
Proof.
  exists [idop; idop], 2%nat. eexists. split; [vm_compute; reflexivity|]. intros H. apply (H 0%nat 1%nat); [cbn; lia|apply eqv_refl].
Qed.
Print Assumptions C30_duplicate_generators_refuted.

(** ** C27 *)
Definition peq (p q : position) : Prop :=
  let '(x, y, z) := p in let '(x', y', z') := q in qcong x x' /\ qcong y y' /\ qcong z z'.
Lemma peq_refl p : peq p p.
Proof. destruct p as [[x y] z]. cbn. auto using qcong_refl. Qed.
Lemma peq_sym p q : peq p q -> peq q p.
Proof. destruct p as [[x y] z], q as [[x' y'] z']. cbn. intuition auto using qcong_sym. Qed.
Lemma peq_trans p q r : peq p q -> peq q r -> peq p r.
Proof. destruct p as [[x y] z], q as [[x' y'] z'], r as [[? ?] ?]. cbn. intuition eauto using qcong_trans. Qed.
Definition pred (p : position) : position := let '(x, y, z) := p in (mod1 x, mod1 y, mod1 z).
Lemma peq_pred p q : peq p q <-> pred p = pred q.
Proof.
  destruct p as [[x y] z], q as [[x' y'] z']. unfold peq, pred. split.
  - intros (A & B & C). now rewrite (mod1_eq _ _ A), (mod1_eq _ _ B), (mod1_eq _ _ C).
  - intros H. injection H as A B C. repeat split; now apply mod1_cong_iff.
Qed.
Lemma apply_cong a b p q : eqv a b -> peq p q -> peq (apply a p) (apply b q).
Proof.
  intros ((E1&E2&E3&E4&E5&E6&E7&E8&E9) & F1 & F2 & F3). destruct p as [[x y] z], q as [[x' y'] z']. cbn [peq apply].
  intros (A & B & C). rewrite E1, E2, E3, E4, E5, E6, E7, E8, E9. repeat split; apply qcong_plus; auto; now apply rowdot_cong.
Qed.
Lemma apply_mul a b p : peq (apply (mulop a b) p) (apply a (apply b p)).
Proof.
  destruct p as [[x y] z]. cbn [peq apply mulop r11 r12 r13 r21 r22 r23 r31 r32 r33 t1 t2 t3].
  repeat split; apply qcong_eq; unfold rowdot; rewrite !inject_Z_plus, !inject_Z_mult; ring.
Qed.
Lemma apply_id p : peq (apply idop p) p.
Proof. destruct p as [[x y] z]. cbn [peq apply idop r11 r12 r13 r21 r22 r23 r31 r32 r33 t1 t2 t3]. repeat split; apply qcong_eq; unfold rowdot, inject_Z; ring. Qed.
Lemma apply_star a b p : peq (apply (star a b) p) (apply a (apply b p)).
Proof. eapply peq_trans; [apply apply_cong; [apply reduce_eqv|apply peq_refl]|apply apply_mul]. Qed.

(** [q] occurs among the positions [l] modulo lattice translations. *)
Definition occurs (q : position) (l : list position) : Prop := exists r, In r l /\ peq q r.

(** C27.  The symmetrised positions contain the position, are mapped to themselves by every operation,
    and every one of them generates the same set. *)
Theorem C27_orbit : forall e g p, In e table -> space_group (SInt (e_number e)) = Ok g ->
  length (symmetrize_position g p) = e_total e /\
  occurs p (symmetrize_position g p) /\
  (forall o q, In o (g_ops g) -> In q (symmetrize_position g p) -> occurs (apply o q) (symmetrize_position g p)) /\
  (forall q r, In q (symmetrize_position g p) -> (occurs r (symmetrize_position g q) <-> occurs r (symmetrize_position g p))).
Proof.
  intros e g p I H. destruct (named_group None (SInt (e_number e)) e I eq_refl) as (gens & ops & H' & _ & _ & G & L).
  assert (E : Ok g = Ok (loaded e gens ops)) by (rewrite <- H, <- H'; reflexivity). inversion E; subst g; clear E H H'.
  unfold symmetrize_position. cbn [g_ops loaded]. destruct G as [C N Id M V].
  split; [now rewrite map_length|]. split; [|split].
  - exists (apply idop p). split; [apply (in_map (fun o => apply o p)); auto|apply peq_sym, apply_id].
  - intros o q Io Iq. apply in_map_iff in Iq. destruct Iq as (a & <- & Ia).
    exists (apply (star o a) p). split; [apply (in_map (fun o => apply o p)); auto|apply peq_sym, apply_star].
  - intros q r Iq. apply in_map_iff in Iq. destruct Iq as (a & <- & Ia). split; intros (s & Is & Es); apply in_map_iff in Is; destruct Is as (b & <- & Ib).
    + exists (apply (star b a) p). split; [apply (in_map (fun o => apply o p)); auto|]. eapply peq_trans; [exact Es|apply peq_sym, apply_star].
    + destruct (V a Ia) as (a' & Ia' & _ & Ea). exists (apply (star b a') (apply a p)).
      split; [apply (in_map (fun o => apply o (apply a p))); auto|]. eapply peq_trans; [exact Es|]. apply peq_sym.
      eapply peq_trans; [apply apply_star|]. apply apply_cong; [apply eqv_refl|].
      eapply peq_trans; [apply peq_sym, apply_star|]. rewrite Ea. apply apply_id.
Qed.
Print Assumptions C27_orbit.

(** Counting. *)
Lemma NoDup_map_in {A B} (f : A -> B) l : (forall x y, In x l -> In y l -> f x = f y -> x = y) -> NoDup l -> NoDup (map f l).
Proof.
  intros Inj N. induction N as [|x l I N IH]; cbn; constructor.
  - intros J. apply in_map_iff in J. destruct J as (y & E & Iy). apply I. replace x with y; auto. apply Inj; auto; [now right|now left].
  - apply IH. intros; apply Inj; auto; now right.
Qed.
Definition pos_eqb (p q : position) : bool :=
  let '(x, y, z) := p in let '(x', y', z') := q in qsame x x' && qsame y y' && qsame z z'.
Lemma pos_eqb_iff p q : pos_eqb p q = true <-> p = q.
Proof.
  destruct p as [[x y] z], q as [[x' y'] z']. cbn. split.
  - intros H. apply andb_prop in H. destruct H as [H K]. apply andb_prop in H. destruct H as [H L]. apply qsame_eq in H, K, L. congruence.
  - intros H. inversion H; subst. unfold qsame. rewrite !Z.eqb_refl, !Pos.eqb_refl. reflexivity.
Qed.
Definition sumn (l : list nat) : nat := fold_right plus 0%nat l.
Lemma count_one {B} (eqb : B -> B -> bool) (D : list B) x : (forall x y, eqb x y = true <-> x = y) -> NoDup D -> In x D ->
  length (filter (eqb x) D) = 1%nat.
Proof.
  intros EQ N I. induction N as [|d D J N IH]; [destruct I|]. cbn [filter]. destruct I as [->|I].
  - rewrite (proj2 (EQ x x) eq_refl). cbn [length]. f_equal.
    clear - EQ J. induction D as [|d D IH]; auto. cbn [filter]. destruct (eqb x d) eqn:E.
    + apply EQ in E. subst. exfalso. apply J. now left.
    + apply IH. intros K. apply J. now right.
  - destruct (eqb x d) eqn:E; auto. apply EQ in E. subst. tauto.
Qed.
Lemma sum_cons {A B} (eqb : B -> B -> bool) (f : A -> B) (D : list B) a l :
  sumn (map (fun d => length (filter (fun x => eqb (f x) d) (a :: l))) D) =
  (sumn (map (fun d => length (filter (fun x => eqb (f x) d) l)) D) + length (filter (eqb (f a)) D))%nat.
Proof.
  induction D as [|d D IH]; auto. cbn [map sumn fold_right filter] in *. fold (sumn (map (fun d => length (filter (fun x => eqb (f x) d) l)) D)) in *.
  fold (sumn (map (fun d => length (if eqb (f a) d then a :: filter (fun x => eqb (f x) d) l else filter (fun x => eqb (f x) d) l)) D)) in *.
  rewrite IH. destruct (eqb (f a) d); cbn [length]; lia.
Qed.
Lemma fibers {A B} (eqb : B -> B -> bool) (f : A -> B) (D : list B) (k : nat) (l : list A) :
  (forall x y, eqb x y = true <-> x = y) -> NoDup D -> (forall a, In a l -> In (f a) D) ->
  (forall d, In d D -> length (filter (fun a => eqb (f a) d) l) = k) -> length l = (k * length D)%nat.
Proof.
  intros EQ N C K.
  assert (S : length l = sumn (map (fun d => length (filter (fun a => eqb (f a) d) l)) D)).
  { clear K. induction l as [|a l IH].
    - cbn. clear. induction D; cbn; auto.
    - rewrite sum_cons, count_one; auto; [|apply C; now left]. cbn [length]. rewrite IH by (intros; apply C; now right). lia. }
  rewrite S. clear S C N EQ.
  induction D as [|d D IH]; cbn [map sumn fold_right length]; [lia|]. fold (sumn (map (fun d => length (filter (fun x => eqb (f x) d) l)) D)).
  rewrite K by (now left). rewrite IH by (intros; apply K; now right). lia.
Qed.

(** C27.  The number of distinct equivalent positions divides the number of operations: any list of
    pairwise inequivalent positions that together represent all symmetrised positions has a length
    dividing it. *)
Theorem C27_multiplicity : forall e g p reps, In e table -> space_group (SInt (e_number e)) = Ok g ->
  (forall i j, (i < j < length reps)%nat -> ~ peq (nth i reps p) (nth j reps p)) ->
  (forall r, In r reps -> occurs r (symmetrize_position g p)) ->
  (forall q, In q (symmetrize_position g p) -> occurs q reps) ->
  Nat.divide (length reps) (e_total e).
Proof.
  intros e g p reps I H Nr Sub Cov. destruct (named_group None (SInt (e_number e)) e I eq_refl) as (gens & ops & H' & _ & _ & G & L).
  assert (E : Ok g = Ok (loaded e gens ops)) by (rewrite <- H, <- H'; reflexivity). inversion E; subst g; clear E H H'.
  unfold symmetrize_position in *. cbn [g_ops loaded] in *. destruct G as [C N Id M V]. rewrite Forall_forall in C.
  set (f := fun o => pred (apply o p)).
  set (stab := filter (fun o => pos_eqb (f o) (pred p)) ops).
  exists (length stab). rewrite <- L.
  rewrite <- (map_length pred reps). apply (fibers pos_eqb f).
  - apply pos_eqb_iff.
  - apply (NoDup_nth (map pred reps) (pred p)). intros i j Li Lj E. rewrite map_length in *. rewrite !map_nth in E. apply peq_pred in E.
    destruct (Nat.lt_trichotomy i j) as [K|[K|K]]; auto; exfalso; [apply (Nr i j)|apply (Nr j i)]; auto; try lia. now apply peq_sym.
  - intros o Io. destruct (Cov (apply o p)) as (r & Ir & Er); [apply (in_map (fun o => apply o p)); auto|].
    unfold f. apply peq_pred in Er. rewrite Er. now apply in_map.
  - intros d Id'. apply in_map_iff in Id'. destruct Id' as (r & <- & Ir). destruct (Sub r Ir) as (s & Is & Es).
    apply in_map_iff in Is. destruct Is as (a & <- & Ia). destruct (V a Ia) as (a' & Ia' & Ea1 & Ea2).
    apply peq_pred in Es. rewrite Es. apply Nat.le_antisymm.
    + rewrite <- (map_length (star a') (filter _ ops)). apply NoDup_incl_length.
      * assert (Inj : forall x y, In x (filter (fun o => pos_eqb (f o) (pred (apply a p))) ops) -> In y (filter (fun o => pos_eqb (f o) (pred (apply a p))) ops) -> star a' x = star a' y -> x = y).
        { intros x y Ix Iy E. apply filter_In in Ix, Iy. rewrite <- (star_id_l x), <- (star_id_l y) by (apply C; tauto). rewrite <- Ea1, <- !star_assoc. now rewrite E. }
        apply NoDup_map_in; auto. now apply NoDup_filter.
      * intros x Ix. apply in_map_iff in Ix. destruct Ix as (o & <- & Io). apply filter_In in Io. destruct Io as [Io Eo].
        apply filter_In. split; [auto|]. apply pos_eqb_iff in Eo. apply pos_eqb_iff. unfold f in *. apply peq_pred in Eo. apply peq_pred.
        eapply peq_trans; [apply apply_star|]. eapply peq_trans; [apply apply_cong; [apply eqv_refl|exact Eo]|].
        eapply peq_trans; [apply peq_sym, apply_star|]. rewrite Ea2. apply apply_id.
    + unfold stab. rewrite <- (map_length (star a) (filter _ ops)). apply NoDup_incl_length.
      * assert (Inj : forall x y, In x (filter (fun o => pos_eqb (f o) (pred p)) ops) -> In y (filter (fun o => pos_eqb (f o) (pred p)) ops) -> star a x = star a y -> x = y).
        { intros x y Ix Iy E. apply filter_In in Ix, Iy. rewrite <- (star_id_l x), <- (star_id_l y) by (apply C; tauto). rewrite <- Ea2, <- !star_assoc. now rewrite E. }
        apply NoDup_map_in; auto. now apply NoDup_filter.
      * intros x Ix. apply in_map_iff in Ix. destruct Ix as (o & <- & Io). apply filter_In in Io. destruct Io as [Io Eo].
        apply filter_In. split; [auto|]. apply pos_eqb_iff in Eo. apply pos_eqb_iff. unfold f in *. apply peq_pred in Eo. apply peq_pred.
        eapply peq_trans; [apply apply_star|]. apply apply_cong; [apply eqv_refl|exact Eo].
Qed.
Print Assumptions C27_multiplicity.
(** A special position: (0, 1/4, 0) of P-1 has two distinct images. *)
Example C27_ex : exists e g, In e table /\ space_group (SInt (e_number e)) = Ok g /\ e_total e = 2%nat /\
  let p := (0, 1 # 4, 0) in let reps := [(0, 1 # 4, 0); (0, 3 # 4, 0)] in
  (forall i j, (i < j < length reps)%nat -> ~ peq (nth i reps p) (nth j reps p)) /\
  (forall r, In r reps -> occurs r (symmetrize_position g p)) /\
  (forall q, In q (symmetrize_position g p) -> occurs q reps).
Proof.
  exists (nth 1 table (mkE "" 0 [] 0 "" "" "" "")). eexists. split; [right; left; reflexivity|].
  split; [vm_compute; reflexivity|]. split; [reflexivity|]. cbv zeta.
  assert (A : occurs (0, 1 # 4, 0) [(0, 1 # 4, 0); (0, 3 # 4, 0)]) by (eexists; split; [left; reflexivity|apply peq_refl]).
  split; [|split].
  - intros i j L E. cbn [length] in L. assert (i = 0%nat) by lia. assert (j = 1%nat) by lia. subst.
    apply peq_pred in E. vm_compute in E. discriminate.
  - intros r [<-|[<-|[]]].
    + eexists. split; [left; reflexivity|]. apply peq_pred. vm_compute. reflexivity.
    + eexists. split; [right; left; reflexivity|]. apply peq_pred. vm_compute. reflexivity.
  - intros q [<-|[<-|[]]].
    + exists (0, 1 # 4, 0). split; [left; reflexivity|]. apply peq_pred. vm_compute. reflexivity.
    + exists (0, 3 # 4, 0). split; [right; left; reflexivity|]. apply peq_pred. vm_compute. reflexivity.
Qed.

(** The 230 tabulated groups: checked by computation over the finite table and lifted. *)
From Coq Require Import String Ascii List ZArith QArith Qround Bool Lia Lqa.
From Verif Require Import Base SymData SymModel SymProof.
Import ListNotations.
Local Open Scope Q_scope.

(** Products of generators. *)
Inductive product (gens : list op) : op -> Prop :=
| prod_gen g : In g gens -> product gens g
| prod_mul a b : product gens a -> product gens b -> product gens (mulop a b).

Definition nodup_b {A} (eqb : A -> A -> bool) : list A -> bool :=
  fix go l := match l with [] => true | x :: r => negb (existsb (eqb x) r) && go r end.
Lemma nodup_b_ok {A} (eqb : A -> A -> bool) l : (forall x, eqb x x = true) -> nodup_b eqb l = true -> NoDup l.
Proof.
  intros R. induction l as [|x l IH]; cbn; [constructor|]. intros H. apply andb_prop in H. destruct H as [H1 H2].
  constructor; auto. intros I. apply negb_true_iff in H1. assert (existsb (eqb x) l = true) by (apply existsb_exists; eauto). congruence.
Qed.
Lemma NoDup_map_inj {A B} (f : A -> B) l a b : NoDup (map f l) -> In a l -> In b l -> f a = f b -> a = b.
Proof.
  induction l as [|x l IH]; cbn; [tauto|]. intros N. inversion N; subst. intros [<-|Ia] [<-|Ib] E; auto.
  - exfalso. apply H1. rewrite E. now apply in_map.
  - exfalso. apply H1. rewrite <- E. now apply in_map.
Qed.

(** ** Lookup *)
Lemma numbers_nodup : NoDup (map e_number table).
Proof. apply (nodup_b_ok Z.eqb); [apply Z.eqb_refl|]. vm_compute. reflexivity. Qed.
Lemma keys_nodup : NoDup (map e_key table).
Proof. apply (nodup_b_ok String.eqb); [apply String.eqb_refl|]. vm_compute. reflexivity. Qed.
Definition names (e : entry) : list string := [e_key e; e_hm e; e_full e].
Lemma names_disjoint e e' s : In e table -> In e' table -> In s (names e) -> In s (names e') -> e = e'.
Proof.
  assert (C : forallb (fun a => forallb (fun b => Z.eqb (e_number a) (e_number b) ||
    negb (existsb (fun s => existsb (String.eqb s) (names b)) (names a))) table) table = true) by (vm_compute; reflexivity).
  rewrite forallb_forall in C. intros I I' S S'. specialize (C e I). rewrite forallb_forall in C. specialize (C e' I').
  apply orb_prop in C. destruct C as [C|C].
  - apply Z.eqb_eq in C. eapply NoDup_map_inj; eauto. apply numbers_nodup.
  - apply negb_true_iff in C. assert (existsb (fun s => existsb (String.eqb s) (names e')) (names e) = true); [|congruence].
    apply existsb_exists. exists s. split; auto. apply existsb_exists. exists s. split; auto. apply String.eqb_refl.
Qed.
Lemma by_key_some e : In e table -> by_key (e_key e) = Some e.
Proof.
  intros I. unfold by_key. assert (N := keys_nodup). revert I N. generalize table. intros t. induction t as [|x t IH]; cbn; [tauto|].
  intros [->|I] N; [now rewrite String.eqb_refl|]. inversion N; subst.
  destruct (String.eqb (e_key x) (e_key e)) eqn:E; [|auto]. exfalso. apply String.eqb_eq in E. apply H1. rewrite E. now apply in_map.
Qed.
Lemma by_key_inv k e : by_key k = Some e -> In e table /\ e_key e = k.
Proof. unfold by_key. intros H. apply find_some in H. destruct H as [I E]. now apply String.eqb_eq in E. Qed.
Lemma last_match_none f old : (forall e, In e table -> f e = false) -> last_match f old = old.
Proof.
  unfold last_match. generalize table. intros t. revert old. induction t as [|x t IH]; intros old H; cbn; auto.
  rewrite (H x) by (now left). apply IH. intros; apply H; now right.
Qed.
Lemma last_match_some f old e : In e table -> f e = true -> (forall e', In e' table -> f e' = true -> e' = e) ->
  last_match f old = Some (e_key e).
Proof.
  unfold last_match. intros I F U. revert old I U. generalize table. intros t. induction t as [|x t IH]; intros old I U; [destruct I|].
  cbn [fold_left]. destruct I as [->|I].
  - rewrite F. assert (G : forall e', In e' t -> f e' = true -> e' = e) by (intros; apply U; auto; now right).
    clear - G. induction t as [|y t IH]; cbn [fold_left]; auto. destruct (f y) eqn:E.
    + rewrite (G y) by (auto; now left). apply IH. intros; apply G; auto; now right.
    + apply IH. intros; apply G; auto; now right.
  - apply IH; auto. intros; apply U; auto; now right.
Qed.

(** What a name denotes, independently of the search. *)
Definition denotes (a : symbol_arg) (e : entry) : Prop :=
  match a with SInt n => e_number e = n | SStr s => In s (names e) | SOther => False end.
Lemma select_some old a e : In e table -> denotes a e -> select old a = Ok (Some (e_key e)).
Proof.
  intros I D. destruct a as [n|s|]; cbn [denotes] in D; [| |tauto].
  - unfold select. f_equal. apply last_match_some; auto; [now apply Z.eqb_eq|]. intros e' I' E. apply Z.eqb_eq in E.
    eapply NoDup_map_inj; eauto; [apply numbers_nodup|congruence].
  - unfold select. destruct (by_key s) as [e'|] eqn:K.
    + apply by_key_inv in K. destruct K as [I' K]. assert (e' = e).
      { eapply names_disjoint; eauto. left. auto. } subst. reflexivity.
    + f_equal. apply last_match_some; auto.
      * destruct D as [D|[D|[D|[]]]]; subst.
        -- rewrite by_key_some in K by auto. discriminate.
        -- now rewrite String.eqb_refl.
        -- rewrite String.eqb_refl. apply orb_true_r.
      * intros e' I' E. eapply names_disjoint; eauto. apply orb_prop in E. destruct E as [E|E]; apply String.eqb_eq in E; cbn; auto.
Qed.
Lemma select_none old a : a <> SOther -> (forall e, In e table -> ~ denotes a e) -> select old a = Ok old.
Proof.
  intros N D. destruct a as [n|s|]; [| |congruence]; unfold select.
  - f_equal. apply last_match_none. intros e I. destruct (Z.eqb_spec (e_number e) n); auto. exfalso. now apply (D e I).
  - destruct (by_key s) as [e|] eqn:K.
    + apply by_key_inv in K. destruct K as [I K]. exfalso. apply (D e I). now left.
    + f_equal. apply last_match_none. intros e I.
      destruct (String.eqb (e_hm e) s) eqn:E1; [exfalso; apply String.eqb_eq in E1; apply (D e I); cbn; auto|].
      destruct (String.eqb (e_full e) s) eqn:E2; [exfalso; apply String.eqb_eq in E2; apply (D e I); cbn; auto|]. reflexivity.
Qed.

(** ** The operations of the tabulated groups *)
Definition qsame (a b : Q) : bool := Z.eqb (Qnum a) (Qnum b) && Pos.eqb (Qden a) (Qden b).
Definition canon_b (o : op) : bool := qsame (mod1 (t1 o)) (t1 o) && qsame (mod1 (t2 o)) (t2 o) && qsame (mod1 (t3 o)) (t3 o).
Lemma qsame_eq a b : qsame a b = true -> a = b.
Proof. destruct a, b. unfold qsame; cbn. intros H. apply andb_prop in H. destruct H as [H K]. apply Z.eqb_eq in H. apply Pos.eqb_eq in K. congruence. Qed.
Lemma canon_b_ok o : canon_b o = true -> canon o.
Proof.
  unfold canon_b, canon, reduce. intros H. apply andb_prop in H. destruct H as [H K]. apply andb_prop in H. destruct H as [H L].
  apply qsame_eq in H, K, L. rewrite H, K, L. destruct o; reflexivity.
Qed.
Definition check (e : entry) : bool :=
  match get_generator_from_str (e_gens e) with
  | Err _ => false
  | Ok gens =>
      match operations gens (e_total e) with
      | Err _ => false
      | Ok l =>
          nodup_b op_eqb l && forallb canon_b l && op_in idop l &&
          forallb (fun y => forallb (fun g => op_in (star g y) l) gens) l &&
          forallb (fun y => existsb (fun z => op_eqb (star y z) idop && op_eqb (star z y) idop) l) l
      end
  end.
Lemma table_checked : forallb check table = true.
Proof. exact (@eq_refl bool true <: forallb check table = true). Qed.

Lemma product_inv gens total l : operations gens total = Ok l -> length l = total /\
  Forall (fun o => exists p, product gens p /\ eqv o p) l /\ (exists suf, l = (gens ++ suf)%list).
Proof.
  unfold operations. destruct (closure (S total) total gens gens) as [l'|] eqn:C; [|discriminate].
  destruct (Nat.eqb (length l') total) eqn:E; [|discriminate]. intros H. inversion H; subst l'. clear H.
  apply Nat.eqb_eq in E. split; auto. destruct (closure_inv _ _ _ _ _ C) as (S & P & _). split; auto.
  apply P.
  - intros a (p & Pp & Ep). exists p. split; auto. eapply eqv_trans; [apply reduce_eqv|auto].
  - intros a b (p & Pp & Ep) (q & Pq & Eq). exists (mulop p q). split; [now constructor|now apply mul_compat].
  - apply Forall_forall. intros o I. exists o. split; [now constructor|apply eqv_refl].
  - apply Forall_forall. intros o I. exists o. split; [now constructor|apply eqv_refl].
Qed.

Lemma star_eqv_l a a' b : eqv a a' -> star a b = star a' b.
Proof. intros E. apply eqv_reduce. apply mul_compat; [auto|apply eqv_refl]. Qed.
Lemma canon_idop : canon idop.
Proof. reflexivity. Qed.

(** From closure under left multiplication by generators to closure under composition. *)
Lemma closed_from_left gens l : Forall canon l ->
  (forall g y, In g gens -> In y l -> In (star g y) l) ->
  forall p, product gens p -> forall b, In b l -> In (star p b) l.
Proof.
  intros C H p Pp. induction Pp as [g I|p q Pp IHp Pq IHq]; intros b Ib; auto.
  replace (star (mulop p q) b) with (star p (star q b)); auto.
  rewrite star_assoc. apply star_eqv_l. apply reduce_eqv.
Qed.

Definition loaded (e : entry) (gens ops : list op) : group :=
  mkG (e_key e) (e_pg e) (e_full e) (e_gens e) (e_type e) (e_number e) (e_hm e) gens (e_total e) ops.

Lemma entry_group e : In e table -> exists gens ops,
  load (Some (e_key e)) = Ok (loaded e gens ops) /\ get_generator_from_str (e_gens e) = Ok gens /\
  operations gens (e_total e) = Ok ops /\ is_group ops /\ length ops = e_total e.
Proof.
  intros I. assert (C := table_checked). rewrite forallb_forall in C. specialize (C e I). unfold check in C.
  destruct (get_generator_from_str (e_gens e)) as [gens|] eqn:G; [|discriminate].
  destruct (operations gens (e_total e)) as [l|] eqn:O; [|discriminate].
  apply andb_prop in C. destruct C as [C Inv]. apply andb_prop in C. destruct C as [C Cl].
  apply andb_prop in C. destruct C as [C Id]. apply andb_prop in C. destruct C as [N Cn].
  destruct (product_inv _ _ _ O) as (Ln & Pr & _).
  assert (Fc : Forall canon l).
  { apply Forall_forall. rewrite forallb_forall in Cn. intros o Io. apply canon_b_ok. auto. }
  exists gens, l. split; [unfold load; rewrite by_key_some, G by auto; cbn [bind]; rewrite O; reflexivity|].
  repeat split; auto.
  - apply (nodup_b_ok op_eqb); auto. apply op_eqb_refl.
  - apply (op_in_canon idop l); auto. reflexivity.
  - intros a b Ia Ib. rewrite Forall_forall in Pr. destruct (Pr a Ia) as (p & Pp & Ep). rewrite (star_eqv_l a p b) by auto.
    apply (closed_from_left gens); auto. intros g y Ig Iy. rewrite forallb_forall in Cl. specialize (Cl y Iy). rewrite forallb_forall in Cl.
    apply (op_in_canon (star g y) l); auto. apply star_canon.
  - intros a Ia. rewrite forallb_forall in Inv. specialize (Inv a Ia). apply existsb_exists in Inv. destruct Inv as (b & Ib & E).
    apply andb_prop in E. destruct E as [E1 E2]. exists b. split; auto.
    apply op_eqb_canon in E1; auto using star_canon, canon_idop. apply op_eqb_canon in E2; auto using star_canon, canon_idop.
Qed.

(** A name of an entry selects its group, whatever was selected before. *)
Lemma named_group old a e : In e table -> denotes a e -> exists gens ops,
  bind (select old a) load = Ok (loaded e gens ops) /\ get_generator_from_str (e_gens e) = Ok gens /\
  operations gens (e_total e) = Ok ops /\ is_group ops /\ length ops = e_total e.
Proof.
  intros I D. rewrite (select_some old a e) by auto. cbn [bind]. apply entry_group; auto.
Qed.

(** C45, C46, C52, C65: what instrument components keep and compute. *)
From Coq Require Import String List ZArith Reals Lra Lia Psatz.
From Verif Require Import Base LinAlg EnergyModel LatticeModel ToolsModel CompModel.
Import ListNotations.
Local Open Scope R_scope.

(** ** C45: arguments of components *)
(** An omitted argument leaves the attribute out. *)
Definition kept (x : value) : res value := match x with NoneV => Err AttributeError | _ => Ok x end.

Lemma Ok_inj {A} (a b : A) : Ok a = Ok b -> a = b. Proof. intros H. injection H as H. exact H. Qed.
Lemma lookup_put k v k' o : lookup k (put k' v o) = if String.eqb k' k then Some v else lookup k o.
Proof.
  unfold lookup. induction o as [|[a w] o IH]; cbn.
  - destruct (String.eqb k' k); reflexivity.
  - destruct (String.eqb a k') eqn:E.
    + apply String.eqb_eq in E. subst a. cbn. destruct (String.eqb k' k); reflexivity.
    + cbn. destruct (String.eqb a k) eqn:F; [|exact IH]. apply String.eqb_eq in F. subst a.
      destruct (String.eqb k' k) eqn:G; [|reflexivity]. apply String.eqb_eq in G. subst. rewrite String.eqb_refl in E. discriminate.
Qed.
Lemma get_put k v k' o : get k (put k' v o) = if String.eqb k' k then Ok v else get k o.
Proof. unfold get. rewrite lookup_put. destruct (String.eqb k' k); reflexivity. Qed.
Lemma neqb a b : a <> b -> String.eqb a b = false.
Proof. intros H. destruct (String.eqb a b) eqn:E; [apply String.eqb_eq in E; contradiction|reflexivity]. Qed.

Lemma get_put_opt k x k' o : get k (put_opt k' x o) = if String.eqb k' k then match x with NoneV => get k o | _ => Ok x end else get k o.
Proof. destruct x; cbn [put_opt]; rewrite ?get_put; destruct (String.eqb k' k); reflexivity. Qed.
Lemma get_put_ne k v k' o : String.eqb k' k = false -> get k (put k' v o) = get k o.
Proof. intros E. rewrite get_put, E. reflexivity. Qed.
Lemma get_put_eq k v o : get k (put k v o) = Ok v.
Proof. rewrite get_put, String.eqb_refl. reflexivity. Qed.
Lemma get_opt_ne k v k' o : String.eqb k' k = false -> get k (put_opt k' v o) = get k o.
Proof. intros E. rewrite get_put_opt, E. reflexivity. Qed.
Lemma get_opt_eq k v o : get k (put_opt k v o) = match v with NoneV => get k o | _ => Ok v end.
Proof. rewrite get_put_opt, String.eqb_refl. reflexivity. Qed.
Lemma get_nil k : get k [] = Err AttributeError. Proof. reflexivity. Qed.
(** Reads an attribute of an object built by a fixed sequence of assignments. *)
Ltac read := unfold mono_get, sample_get, item, kept; cbn [String.eqb Ascii.eqb Bool.eqb];
  repeat first [rewrite get_put_eq | rewrite get_opt_eq | rewrite get_put_ne by reflexivity | rewrite get_opt_ne by reflexivity | rewrite get_nil]; try reflexivity.

Theorem C45_monochromator who tau mosaic direct vmosaic height width depth rh rv o :
  mono_init who tau mosaic direct vmosaic height width depth rh rv = Ok o ->
  mono_get "tau" o = Ok tau /\ mono_get "mosaic" o = Ok mosaic /\ mono_get "direct" o = Ok direct /\
  mono_get "vmosaic" o = kept vmosaic /\ mono_get "height" o = kept height /\ mono_get "width" o = kept width /\
  mono_get "depth" o = kept depth /\ mono_get "rh" o = kept rh /\ mono_get "rv" o = kept rv /\
  (exists d, mono_get "d" o = Ok (Num d) /\ spacing who (tau_of tau) = Ok d).
Proof.
  unfold mono_init. destruct (spacing who (tau_of tau)) as [d|e] eqn:E; cbn [bind]; [|discriminate].
  intros H. apply Ok_inj in H. subst o. repeat (split; [read|]). exists d. split; [read|reflexivity].
Qed.
Print Assumptions C45_monochromator.

Example C45_monochromator_case : exists o,
  mono_init CMonochromator (Num (187325 / 100000)) (Num 25) (Num 1) NoneV (Num 10) NoneV NoneV NoneV (Num 80) = Ok o.
Proof.
  unfold mono_init, spacing, get_tau, tau_of. cbn [bind]. destruct (Req_EM_T (187325 / 100000) 0) as [E|E]; [lra|]. cbn [bind]. eexists. reflexivity.
Qed.

(** Of the arguments of an analyzer only tau, mosaic, horifoc, thickness and Q arrive. *)
Theorem C45_analyzer who tau mosaic direct vmosaic height width depth rh rv horifoc thickness Q o :
  ana_init who tau mosaic direct vmosaic height width depth rh rv horifoc thickness Q = Ok o ->
  mono_get "tau" o = Ok tau /\ mono_get "mosaic" o = Ok mosaic /\ mono_get "horifoc" o = Ok horifoc /\
  mono_get "thickness" o = kept thickness /\ mono_get "Q" o = kept Q /\
  mono_get "direct" o = Ok (Num (-1)) /\
  (forall k, In k ["vmosaic"; "height"; "width"; "depth"; "rh"; "rv"]%string -> mono_get k o = Err AttributeError).
Proof.
  unfold ana_init, mono_init. destruct (spacing who (tau_of tau)) as [d|e] eqn:E; cbn [bind]; [|discriminate].
  intros H. apply Ok_inj in H. subst o. repeat (split; [read|]).
  intros k K; cbn in K; repeat (destruct K as [<-|K]; [read|]); destruct K.
Qed.
Print Assumptions C45_analyzer.

(** The expectation that an analyzer keeps the direction, vertical mosaic and size it is given is false. *)
Theorem C45_analyzer_refuted : exists o,
  ana_init CAnalyzer (Num 2) (Num 30) (Num 1) (Num 60) (Num 12) NoneV NoneV NoneV NoneV (Num (-1)) NoneV NoneV = Ok o /\
  mono_get "direct" o <> Ok (Num 1) /\ mono_get "vmosaic" o <> Ok (Num 60) /\ mono_get "height" o <> Ok (Num 12).
Proof.
  unfold ana_init, mono_init, spacing, get_tau, tau_of. cbn [bind]. destruct (Req_EM_T 2 0) as [E|E]; [lra|]. cbn [bind].
  eexists. split; [reflexivity|]. cbn. repeat split; try discriminate. intros H. injection H as H. lra.
Qed.
Print Assumptions C45_analyzer_refuted.

(** The public attributes of a crystal; "_tau" and "dir" are where tau and direct are kept. *)
Definition attributes : list string :=
  ["tau"; "mosaic"; "direct"; "vmosaic"; "height"; "width"; "depth"; "rh"; "rv"; "thickness"; "horifoc"; "Q"]%string.

Definition store (k : string) : string := if String.eqb k "tau" then "_tau" else if String.eqb k "direct" then "dir" else k.
Lemma store_get k o : mono_get k o = get (store k) o.
Proof. unfold mono_get, store. destruct (String.eqb k "tau"); [reflexivity|]. destruct (String.eqb k "direct"); reflexivity. Qed.
Lemma store_inj a b : In a attributes -> In b attributes -> a <> b -> store a <> store b.
Proof.
  intros A B N E.
  assert (H : forallb (fun a => forallb (fun b => orb (String.eqb a b) (negb (String.eqb (store a) (store b)))) attributes) attributes = true) by (vm_compute; reflexivity).
  rewrite forallb_forall in H. specialize (H a A). rewrite forallb_forall in H. specialize (H b B).
  rewrite E, String.eqb_refl, (neqb _ _ N) in H. discriminate.
Qed.

(** What the constructor dropped can be assigned afterwards: the attribute then reads as assigned and no other attribute
    changes, except that assigning tau recomputes the spacing. *)
Theorem C45_assign who k v o o' : In k attributes -> mono_set who k v o = (o', Ok Datatypes.tt) ->
  mono_get k o' = Ok v /\
  (forall k', In k' attributes -> k' <> k -> mono_get k' o' = mono_get k' o) /\
  (k <> "tau"%string -> mono_get "d" o' = mono_get "d" o) /\
  (k = "tau"%string -> exists d, spacing who (tau_of v) = Ok d /\ mono_get "d" o' = Ok (Num d)).
Proof.
  intros K H. unfold mono_set in H. rewrite store_get.
  destruct (string_dec k "tau") as [->|N].
  - cbn in H. destruct (spacing who (tau_of v)) as [d|e] eqn:E; [|discriminate]. injection H as <-.
    split; [rewrite !get_put; reflexivity|]. split.
    + intros k' K' N'. rewrite !store_get, !get_put. change "_tau"%string with (store "tau"). rewrite (neqb _ _ (store_inj "tau" k' K K' (fun e => N' (eq_sym e)))).
      change "d"%string with (store "d"). rewrite (neqb (store "d") (store k')); [reflexivity|].
      clear - K'. cbn in K'. repeat (destruct K' as [<-|K']; [discriminate|]). destruct K'.
    + split; [congruence|]. intros _. exists d. split; [reflexivity|]. rewrite store_get, get_put. reflexivity.
  - rewrite (neqb _ _ N) in H.
    assert (o' = put (store k) v o) as ->.
    { unfold store. rewrite (neqb _ _ N). destruct (String.eqb k "direct"); injection H as <-; reflexivity. }
    split; [rewrite get_put, String.eqb_refl; reflexivity|]. split.
    + intros k' K' N'. rewrite !store_get, get_put. rewrite (neqb _ _ (store_inj k k' K K' (fun e => N' (eq_sym e)))). reflexivity.
    + split; [|intros F; contradiction]. intros _. rewrite !store_get, get_put. rewrite (neqb (store k) (store "d")); [reflexivity|].
      clear - K. cbn in K. repeat (destruct K as [<-|K]; [discriminate|]). destruct K.
Qed.
Print Assumptions C45_assign.

Example C45_assign_case : exists o', mono_set CAnalyzer "direct" (Num 1) [("dir"%string, Num (-1))] = (o', Ok Datatypes.tt).
Proof. eexists. reflexivity. Qed.

(** A sample keeps what it is given. *)
Theorem C45_sample a b c alpha beta gamma u v mosaic vmosaic direct width height depth shape distance :
  let o := sample_init a b c alpha beta gamma u v mosaic vmosaic direct width height depth shape distance in
  sample_get "a" o = Ok (Num a) /\ sample_get "b" o = Ok (Num b) /\ sample_get "c" o = Ok (Num c) /\
  sample_get "alpha" o = Ok (Num alpha) /\ sample_get "beta" o = Ok (Num beta) /\ sample_get "gamma" o = Ok (Num gamma) /\
  sample_get "u" o = kept u /\ sample_get "v" o = kept v /\
  sample_get "mosaic" o = kept mosaic /\ sample_get "vmosaic" o = kept vmosaic /\ sample_get "direct" o = Ok direct /\
  sample_get "width" o = kept width /\ sample_get "height" o = kept height /\ sample_get "depth" o = kept depth /\
  sample_get "distance" o = kept distance /\ sample_get "shape_type" o = Ok shape.
Proof.
  intros o. unfold o, sample_init. repeat (split; [read|]). read.
Qed.
Print Assumptions C45_sample.

(** A material stores its mosaic as first orientation vector, the vertical mosaic as second one, the direction as mosaic,
    u as vertical mosaic and v as direction. *)
Theorem C45_material a b c alpha beta gamma m :
  let o := material_sample a b c alpha beta gamma m in
  let given x := match x with Some v => kept v | None => Err AttributeError end in
  sample_get "u" o = given (k_mosaic m) /\ sample_get "v" o = given (k_vmosaic m) /\
  sample_get "mosaic" o = match k_dir m with Some d => kept d | None => Ok (Num 1) end /\
  sample_get "vmosaic" o = given (k_u m) /\
  sample_get "direct" o = Ok (match k_v m with Some v => v | None => NoneV end) /\
  sample_get "a" o = Ok (Num a) /\ sample_get "alpha" o = Ok (Num alpha).
Proof.
  intros o given. unfold o, material_sample. destruct m as [mo vm di mu mv]. cbn [k_mosaic k_vmosaic k_dir k_u k_v].
  match goal with |- context[sample_init ?a ?b ?c ?d ?e ?f ?g ?h ?i ?j ?k ?l ?m ?n ?o ?p] => pose proof (C45_sample a b c d e f g h i j k l m n o p) as H end.
  cbv zeta in H. destruct H as (Ha & _ & _ & Hal & _ & _ & Hu & Hv & Hm & Hvm & Hd & _).
  rewrite Hu, Hv, Hm, Hvm, Hd, Ha, Hal. destruct mo, vm, di, mu, mv; repeat split; reflexivity.
Qed.
Print Assumptions C45_material.

Theorem C45_material_refuted : exists m, k_mosaic m = Some (Num 30) /\ k_u m = Some (Vec [1; 0; 0]) /\
  let o := material_sample 4 4 4 90 90 90 m in
  sample_get "mosaic" o <> Ok (Num 30) /\ sample_get "u" o <> Ok (Vec [1; 0; 0]) /\ sample_get "direct" o <> Ok (Num 1).
Proof.
  exists (mkKeys (Some (Num 30)) None None (Some (Vec [1; 0; 0])) None). repeat split; cbn; try discriminate.
  intros H. injection H as H. lra.
Qed.
Print Assumptions C45_material_refuted.

(** ** C66: equality of components *)
Lemma num_eq_iff x y : num_eq x y = true <-> x = y.
Proof. unfold num_eq. destruct (Req_EM_T x y); split; congruence. Qed.
Lemma nums_eq_iff l : forall m, nums_eq l m = true <-> l = m.
Proof.
  induction l as [|x l IH]; intros [|y m]; cbn; try (split; congruence).
  rewrite Bool.andb_true_iff, num_eq_iff, IH. split; [intros [-> ->]; reflexivity|intros H; injection H; auto].
Qed.
(** Both a single number or neither of them: then numpy compares without spreading the number over the array. *)
Definition plain (v w : value) : Prop := match v, w with Num _, Vec _ | Vec _, Num _ => False | _, _ => True end.
Lemma val_eq_iff v w : plain v w -> (val_eq v w = true <-> v = w).
Proof.
  destruct v, w; cbn; intros P; try (split; congruence); try contradiction.
  - rewrite num_eq_iff. split; [intros ->; reflexivity|congruence].
  - rewrite String.eqb_eq. split; [intros ->; reflexivity|congruence].
  - rewrite nums_eq_iff. split; [intros ->; reflexivity|congruence].
Qed.
Lemma mem_in k l : mem k l = true <-> In k l.
Proof.
  unfold mem. rewrite existsb_exists. split; [intros (x & I & E); apply String.eqb_eq in E; subst; exact I|intros I; exists k; split; [exact I|apply String.eqb_refl]].
Qed.
Lemma lookup_in {A} k (o : list (string * A)) : lookup k o <> None <-> In k (map fst o).
Proof.
  unfold lookup. induction o as [|[a w] o IH]; cbn; [split; [congruence|intros []]|].
  destruct (String.eqb a k) eqn:E; cbn.
  - apply String.eqb_eq in E. split; [intros _; left; exact E|discriminate].
  - rewrite IH. apply String.eqb_neq in E. tauto.
Qed.
Lemma lookup_elt {A} k (v : A) o : NoDup (map fst o) -> In (k, v) o -> lookup k o = Some v.
Proof.
  unfold lookup. induction o as [|[a w] o IH]; cbn; intros N I; [destruct I|]. inversion N as [|x l N1 N2]. subst. destruct I as [E|I].
  - injection E as -> ->. rewrite String.eqb_refl. reflexivity.
  - destruct (String.eqb a k) eqn:E; [|apply IH; assumption]. apply String.eqb_eq in E. subst. exfalso. apply N1. exact (in_map fst _ _ I).
Qed.
Lemma lookup_some_in {A} k (v : A) o : lookup k o = Some v -> In (k, v) o.
Proof.
  unfold lookup. induction o as [|[a w] o IH]; cbn; [discriminate|]. destruct (String.eqb a k) eqn:E; cbn; intros H.
  - injection H as ->. apply String.eqb_eq in E. subst. left. reflexivity.
  - right. apply IH. exact H.
Qed.
Lemma obj_eq_iff o p : NoDup (keys o) -> NoDup (keys p) ->
  (forall k v w, lookup k o = Some v -> lookup k p = Some w -> plain v w) ->
  (obj_eq o p = true <-> forall k, lookup k o = lookup k p).
Proof.
  intros No Np P. unfold obj_eq, same_keys. rewrite !Bool.andb_true_iff. split.
  - intros [[[L A] B] C]. rewrite forallb_forall in A, B, C. intros k.
    destruct (lookup k o) as [v|] eqn:E.
    + specialize (C (k, v) (lookup_some_in _ _ _ E)). cbn in C. destruct (lookup k p) as [w|] eqn:F; [|discriminate].
      apply val_eq_iff in C; [subst; reflexivity|exact (P k v w E F)].
    + destruct (lookup k p) as [w|] eqn:F; [|reflexivity]. exfalso.
      assert (I : In k (keys p)) by (apply lookup_in; congruence). specialize (B k I). apply mem_in in B. apply lookup_in in B. contradiction.
  - intros H. assert (Iop : incl (keys o) (keys p)) by (intros k I; apply lookup_in; rewrite <- H; apply lookup_in; exact I).
    assert (Ipo : incl (keys p) (keys o)) by (intros k I; apply lookup_in; rewrite H; apply lookup_in; exact I).
    split; [split; [split|]|].
    + apply Nat.eqb_eq. pose proof (NoDup_incl_length No Iop) as H1. pose proof (NoDup_incl_length Np Ipo) as H2.
      unfold keys in H1, H2. rewrite !map_length in H1, H2. lia.
    + apply forallb_forall. intros k I. apply mem_in. auto.
    + apply forallb_forall. intros k I. apply mem_in. auto.
    + apply forallb_forall. intros [k v] I. cbn. pose proof (lookup_elt k v o No I) as E. rewrite <- H, E.
      apply val_eq_iff; [|reflexivity]. apply (P k v v); [exact E|rewrite <- H; exact E].
Qed.
Lemma keys_put k v o : forall k', In k' (keys (put k v o)) -> k' = k \/ In k' (keys o).
Proof.
  induction o as [|[a w] o IH]; cbn; intros k' I; [intuition congruence|].
  destruct (String.eqb a k) eqn:E; cbn in I.
  - destruct I as [<-|I]; auto.
  - destruct I as [<-|I]; [auto|]. destruct (IH k' I); auto.
Qed.
Lemma nodup_put k v o : NoDup (keys o) -> NoDup (keys (put k v o)).
Proof.
  induction o as [|[a w] o IH]; cbn; intros N; [repeat constructor; auto|]. inversion N as [|x l N1 N2]. subst.
  destruct (String.eqb a k) eqn:E; cbn.
  - apply String.eqb_eq in E. subst. constructor; assumption.
  - constructor; [|apply IH; exact N2]. intros I. apply keys_put in I. apply String.eqb_neq in E. destruct I; contradiction.
Qed.
Lemma nodup_opt k v o : NoDup (keys o) -> NoDup (keys (put_opt k v o)).
Proof. destruct v; cbn [put_opt]; intros N; try exact N; apply nodup_put; exact N. Qed.
Ltac nodup := repeat first [apply nodup_opt | apply nodup_put]; apply NoDup_nil.
Lemma kept_inj x y : kept x = kept y -> x = y.
Proof. destruct x, y; cbn; congruence. Qed.
Lemma lookup_get k o p : lookup k o = lookup k p -> get k o = get k p.
Proof. unfold get. intros ->. reflexivity. Qed.

(** A value other than an array. *)
Definition single (v : value) : Prop := match v with Vec _ => False | _ => True end.
Lemma single_plain v w : single v -> single w -> plain v w.
Proof. destruct v, w; cbn; tauto. Qed.
Definition all_single (o : obj) : Prop := forall k v, lookup k o = Some v -> single v.
Lemma single_put k v o : single v -> all_single o -> all_single (put k v o).
Proof. intros Sv So k' w H. rewrite lookup_put in H. destruct (String.eqb k k'); [injection H as <-; exact Sv|exact (So _ _ H)]. Qed.
Lemma single_opt k v o : single v -> all_single o -> all_single (put_opt k v o).
Proof. intros Sv So. destruct v; cbn [put_opt]; try exact So; apply single_put; assumption. Qed.

(** Two monochromators are equal exactly when they were given the same arguments. *)
Theorem C66_monochromator who tau mosaic direct vmosaic height width depth rh rv o tau' mosaic' direct' vmosaic' height' width' depth' rh' rv' p :
  List.Forall single [tau; mosaic; direct; vmosaic; height; width; depth; rh; rv] ->
  List.Forall single [tau'; mosaic'; direct'; vmosaic'; height'; width'; depth'; rh'; rv'] ->
  mono_init who tau mosaic direct vmosaic height width depth rh rv = Ok o ->
  mono_init who tau' mosaic' direct' vmosaic' height' width' depth' rh' rv' = Ok p ->
  (obj_eq o p = true <->
   [tau; mosaic; direct; vmosaic; height; width; depth; rh; rv] = [tau'; mosaic'; direct'; vmosaic'; height'; width'; depth'; rh'; rv']).
Proof.
  assert (shape : forall tau mosaic direct vmosaic height width depth rh rv o,
    List.Forall single [tau; mosaic; direct; vmosaic; height; width; depth; rh; rv] ->
    mono_init who tau mosaic direct vmosaic height width depth rh rv = Ok o -> NoDup (keys o) /\ all_single o).
  { clear. intros tau mosaic direct vmosaic height width depth rh rv o F H. unfold mono_init in H.
    destruct (spacing who (tau_of tau)) as [d|e]; cbn [bind] in H; [|discriminate]. apply Ok_inj in H. subst o. split; [nodup|].
    repeat match goal with F : List.Forall _ (_ :: _) |- _ => inversion F; clear F; subst end.
    repeat first [apply single_opt; [assumption|] | apply single_put; [first [assumption|exact I]|]]. intros k v H. discriminate. }
  intros F F' H H'. destruct (shape _ _ _ _ _ _ _ _ _ _ F H) as [No So]. destruct (shape _ _ _ _ _ _ _ _ _ _ F' H') as [Np Sp].
  rewrite (obj_eq_iff o p No Np (fun k v w A B => single_plain v w (So k v A) (Sp k w B))). split.
  - intros E. destruct (C45_monochromator _ _ _ _ _ _ _ _ _ _ _ H) as (A1 & A2 & A3 & A4 & A5 & A6 & A7 & A8 & A9 & _).
    destruct (C45_monochromator _ _ _ _ _ _ _ _ _ _ _ H') as (B1 & B2 & B3 & B4 & B5 & B6 & B7 & B8 & B9 & _).
    assert (G : forall k, mono_get k o = mono_get k p) by (intros k; rewrite !store_get; apply lookup_get, E).
    rewrite G in A1, A2, A3, A4, A5, A6, A7, A8, A9.
    rewrite B1 in A1. rewrite B2 in A2. rewrite B3 in A3. rewrite B4 in A4. rewrite B5 in A5. rewrite B6 in A6. rewrite B7 in A7. rewrite B8 in A8. rewrite B9 in A9.
    apply Ok_inj in A1, A2, A3. apply kept_inj in A4, A5, A6, A7, A8, A9. subst. reflexivity.
  - intros E k. injection E as -> -> -> -> -> -> -> -> ->. rewrite H in H'. apply Ok_inj in H'. subst. reflexivity.
Qed.
Print Assumptions C66_monochromator.

(** So a crystal given by name differs from the one given by the number the name stands for, although the spacing is the same. *)
Theorem C66_name_refuted : exists o p, mono_init CMonochromator (Str "PG(002)") (Num 30) (Num (-1)) NoneV NoneV NoneV NoneV NoneV NoneV = Ok o /\
  mono_init CMonochromator (Num (187325 / 100000)) (Num 30) (Num (-1)) NoneV NoneV NoneV NoneV NoneV NoneV = Ok p /\
  mono_get "d" o = mono_get "d" p /\ obj_eq o p = false.
Proof.
  assert (L : lookup (lower "PG(002)") choices = Some (187325 / 100000)).
  { unfold lookup, choices. cbn [find]. replace (String.eqb _ _) with true by (vm_compute; reflexivity). reflexivity. }
  unfold mono_init, spacing, tau_of, get_tau. rewrite L. cbn [bind]. destruct (Req_EM_T (187325 / 100000) 0) as [E|E]; [lra|]. cbn [bind].
  eexists. eexists. split; [reflexivity|]. split; [reflexivity|]. split; reflexivity.
Qed.
Print Assumptions C66_name_refuted.

(** Two analyzers are equal exactly when reflection, mosaic, focusing, thickness and reflectivity agree; whatever directions, vertical mosaics,
    sizes and curvatures they were given. *)
Theorem C66_analyzer who tau mosaic direct vmosaic height width depth rh rv horifoc thickness Q o
                     tau' mosaic' direct' vmosaic' height' width' depth' rh' rv' horifoc' thickness' Q' p :
  List.Forall single [tau; mosaic; horifoc; thickness; Q] -> List.Forall single [tau'; mosaic'; horifoc'; thickness'; Q'] ->
  ana_init who tau mosaic direct vmosaic height width depth rh rv horifoc thickness Q = Ok o ->
  ana_init who tau' mosaic' direct' vmosaic' height' width' depth' rh' rv' horifoc' thickness' Q' = Ok p ->
  (obj_eq o p = true <-> [tau; mosaic; horifoc; thickness; Q] = [tau'; mosaic'; horifoc'; thickness'; Q']).
Proof.
  assert (shape : forall tau mosaic direct vmosaic height width depth rh rv horifoc thickness Q o,
    List.Forall single [tau; mosaic; horifoc; thickness; Q] ->
    ana_init who tau mosaic direct vmosaic height width depth rh rv horifoc thickness Q = Ok o -> NoDup (keys o) /\ all_single o /\
    lookup "_tau" o = Some tau /\ lookup "mosaic" o = Some mosaic /\ lookup "horifoc" o = Some horifoc /\
    lookup "thickness" o = (match thickness with NoneV => None | _ => Some thickness end) /\ lookup "Q" o = (match Q with NoneV => None | _ => Some Q end)).
  { clear. intros tau mosaic direct vmosaic height width depth rh rv horifoc thickness Q o F H. unfold ana_init, mono_init in H.
    destruct (spacing who (tau_of tau)) as [d|e]; cbn [bind] in H; [|discriminate]. apply Ok_inj in H. subst o.
    repeat match goal with F : List.Forall _ (_ :: _) |- _ => inversion F; clear F; subst end. split; [nodup|]. split.
    - repeat first [apply single_opt; [assumption || exact I|] | apply single_put; [first [assumption|exact I]|]]. intros k v H. discriminate.
    - destruct thickness, Q; repeat split; reflexivity. }
  intros F F' H H'. destruct (shape _ _ _ _ _ _ _ _ _ _ _ _ _ F H) as (No & So & A1 & A2 & A3 & A4 & A5).
  destruct (shape _ _ _ _ _ _ _ _ _ _ _ _ _ F' H') as (Np & Sp & B1 & B2 & B3 & B4 & B5).
  rewrite (obj_eq_iff o p No Np (fun k v w A B => single_plain v w (So k v A) (Sp k w B))). split.
  - intros E. rewrite E in A1, A2, A3, A4, A5. rewrite B1 in A1. rewrite B2 in A2. rewrite B3 in A3. rewrite B4 in A4. rewrite B5 in A5.
    injection A1 as <-. injection A2 as <-. injection A3 as <-.
    assert (thickness = thickness') by (destruct thickness, thickness'; congruence). assert (Q = Q') by (destruct Q, Q'; congruence). subst. reflexivity.
  - intros E k. injection E as -> -> -> -> ->. unfold ana_init in H, H'. destruct (mono_init _ _ _ _ _ _ _ _ _ _) as [q|e]; cbn [bind] in H, H'; [|discriminate].
    rewrite H in H'. apply Ok_inj in H'. subst. reflexivity.
Qed.
Print Assumptions C66_analyzer.

(** For instance, analyzers given different directions, mosaics and sizes are equal. *)
Theorem C66_analyzer_refuted : exists o p,
  ana_init CAnalyzer (Num 2) (Num 30) (Num 1) (Num 60) (Num 12) NoneV NoneV NoneV NoneV (Num (-1)) NoneV NoneV = Ok o /\
  ana_init CAnalyzer (Num 2) (Num 30) (Num (-1)) (Num 20) (Num 5) NoneV NoneV NoneV NoneV (Num (-1)) NoneV NoneV = Ok p /\ obj_eq o p = true.
Proof.
  unfold ana_init, mono_init, spacing, get_tau, tau_of. cbn [bind]. destruct (Req_EM_T 2 0) as [E|E]; [lra|]. cbn [bind].
  eexists. eexists. split; [reflexivity|]. split; [reflexivity|]. cbn.
  repeat match goal with |- context[num_eq ?x ?y] => replace (num_eq x y) with true by (symmetry; apply num_eq_iff; reflexivity) end. reflexivity.
Qed.
Print Assumptions C66_analyzer_refuted.

(** Two samples are equal exactly when they were given the same arguments, orientation vectors being arrays. *)
Definition orientation (v : value) : Prop := match v with NoneV | Vec _ => True | _ => False end.
Theorem C66_sample a b c alpha beta gamma u v mosaic vmosaic direct width height depth shape distance
                   a' b' c' alpha' beta' gamma' u' v' mosaic' vmosaic' direct' width' height' depth' shape' distance' :
  List.Forall orientation [u; v; u'; v'] ->
  List.Forall single [mosaic; vmosaic; direct; width; height; depth; shape; distance] ->
  List.Forall single [mosaic'; vmosaic'; direct'; width'; height'; depth'; shape'; distance'] ->
  (obj_eq (sample_init a b c alpha beta gamma u v mosaic vmosaic direct width height depth shape distance)
          (sample_init a' b' c' alpha' beta' gamma' u' v' mosaic' vmosaic' direct' width' height' depth' shape' distance') = true <->
   [a; b; c; alpha; beta; gamma] = [a'; b'; c'; alpha'; beta'; gamma'] /\
   [u; v; mosaic; vmosaic; direct; width; height; depth; shape; distance] = [u'; v'; mosaic'; vmosaic'; direct'; width'; height'; depth'; shape'; distance']).
Proof.
  assert (typ : forall a b c alpha beta gamma u v mosaic vmosaic direct width height depth shape distance k w,
     List.Forall orientation [u; v] -> List.Forall single [mosaic; vmosaic; direct; width; height; depth; shape; distance] ->
     lookup k (sample_init a b c alpha beta gamma u v mosaic vmosaic direct width height depth shape distance) = Some w ->
     if mem k ["abc"; "abg"; "_u"; "_v"]%string then exists l, w = Vec l else single w).
  { clear. intros a b c alpha beta gamma u v mosaic vmosaic direct width height depth shape distance k w F1 F2. unfold sample_init.
    repeat match goal with F : List.Forall _ (_ :: _) |- _ => inversion F; clear F; subst end.
    assert (step : forall k' x o, (if mem k' ["abc"; "abg"; "_u"; "_v"]%string then exists l, x = Vec l else single x) ->
      (lookup k o = Some w -> if mem k ["abc"; "abg"; "_u"; "_v"]%string then exists l, w = Vec l else single w) ->
      lookup k (put k' x o) = Some w -> if mem k ["abc"; "abg"; "_u"; "_v"]%string then exists l, w = Vec l else single w).
    { intros k' x o A B C. rewrite lookup_put in C. destruct (String.eqb k' k) eqn:E; [|exact (B C)]. apply String.eqb_eq in E. subst k'. injection C as <-. exact A. }
    assert (step2 : forall k' x o, (x = NoneV \/ if mem k' ["abc"; "abg"; "_u"; "_v"]%string then exists l, x = Vec l else single x) ->
      (lookup k o = Some w -> if mem k ["abc"; "abg"; "_u"; "_v"]%string then exists l, w = Vec l else single w) ->
      lookup k (put_opt k' x o) = Some w -> if mem k ["abc"; "abg"; "_u"; "_v"]%string then exists l, w = Vec l else single w).
    { intros k' x o A B C. destruct x; cbn [put_opt] in C; [exact (B C)| | |];
      (destruct A as [A|A]; [discriminate|exact (step _ _ _ A B C)]). }
    repeat (apply step2; [right; assumption|]).
    apply step; [assumption|]. apply step; [assumption|].
    repeat (apply step2; [right; assumption|]).
    apply step2; [destruct v; try contradiction; [left; reflexivity|right; eexists; reflexivity]|].
    apply step2; [destruct u; try contradiction; [left; reflexivity|right; eexists; reflexivity]|].
    apply step; [eexists; reflexivity|]. apply step; [eexists; reflexivity|]. discriminate. }
  intros F Fs Fs'. inversion F as [|? ? U1 R1]; subst. inversion R1 as [|? ? U2 R2]; subst. clear F R1.
  match goal with |- obj_eq ?x ?y = true <-> _ => set (o := x); set (p := y) end.
  rewrite (obj_eq_iff o p); [|unfold o, sample_init; nodup|unfold p, sample_init; nodup|].
  2: { intros k x y A B. apply (typ _ _ _ _ _ _ _ _ _ _ _ _ _ _ _ _ k x) in A; [|repeat (constructor; [assumption|]); constructor|exact Fs].
       apply (typ _ _ _ _ _ _ _ _ _ _ _ _ _ _ _ _ k y) in B; [|exact R2|exact Fs'].
       destruct (mem k _); [destruct A as [l ->]; destruct B as [m ->]; exact I|exact (single_plain _ _ A B)]. }
  split.
  - intros E. pose proof (C45_sample a b c alpha beta gamma u v mosaic vmosaic direct width height depth shape distance) as A.
    pose proof (C45_sample a' b' c' alpha' beta' gamma' u' v' mosaic' vmosaic' direct' width' height' depth' shape' distance') as B.
    cbv zeta in A, B. fold o in A. fold p in B.
    assert (G : forall k, sample_get k o = sample_get k p) by (intros k; unfold sample_get, item; rewrite !(lookup_get _ o p (E _)); reflexivity).
    destruct A as (A1 & A2 & A3 & A4 & A5 & A6 & A7 & A8 & A9 & A10 & A11 & A12 & A13 & A14 & A15 & A16).
    destruct B as (B1 & B2 & B3 & B4 & B5 & B6 & B7 & B8 & B9 & B10 & B11 & B12 & B13 & B14 & B15 & B16).
    rewrite G in A1, A2, A3, A4, A5, A6, A7, A8, A9, A10, A11, A12, A13, A14, A15, A16.
    rewrite B1 in A1. rewrite B2 in A2. rewrite B3 in A3. rewrite B4 in A4. rewrite B5 in A5. rewrite B6 in A6. rewrite B7 in A7. rewrite B8 in A8.
    rewrite B9 in A9. rewrite B10 in A10. rewrite B11 in A11. rewrite B12 in A12. rewrite B13 in A13. rewrite B14 in A14. rewrite B15 in A15. rewrite B16 in A16.
    apply Ok_inj in A1, A2, A3, A4, A5, A6, A11, A16. apply kept_inj in A7, A8, A9, A10, A12, A13, A14, A15.
    injection A1 as ->. injection A2 as ->. injection A3 as ->. injection A4 as ->. injection A5 as ->. injection A6 as ->. subst. split; reflexivity.
  - intros [E1 E2] k. injection E1 as -> -> -> -> -> ->. injection E2 as -> -> -> -> -> -> -> -> -> ->. reflexivity.
Qed.
Print Assumptions C66_sample.

Example C66_sample_case : List.Forall orientation [Vec [1; 0; 0]; Vec [0; 1; 0]; NoneV; NoneV] /\
  List.Forall single [Num 30; NoneV; Num 1; NoneV; Num 2; NoneV; Str "rectangular"; NoneV].
Proof. split; repeat (constructor; [exact I|]); constructor. Qed.

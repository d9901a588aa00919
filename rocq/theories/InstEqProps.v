(** C92: equality of triple-axis instruments. *)
From Coq Require Import String List ZArith Reals Arith Bool Lia Lra.
From Verif Require Import Base CompModel ShareModel InstEqModel.
From Verif Require ToolsModel CompProps ShareProps.
Import ListNotations.
Local Open Scope string_scope.
Local Open Scope list_scope.

(** Two values agree if they are the same, or one is a number and the other a list of this number. *)
Inductive agree : value -> value -> Prop :=
| agree_same v : agree v v
| agree_left x l : Forall (eq x) l -> agree (Num x) (Vec l)
| agree_right x l : Forall (eq x) l -> agree (Vec l) (Num x).
Definition alike (r r' : res value) : Prop := match r, r' with Ok v, Ok v' => agree v v' | Err _, Err _ => True | _, _ => False end.
Lemma agree_sym v w : agree v w -> agree w v.
Proof. intros []; constructor; assumption. Qed.
Lemma alike_sym r r' : alike r r' -> alike r' r.
Proof. destruct r, r'; cbn; auto. apply agree_sym. Qed.
Lemma alike_refl r : alike r r. Proof. destruct r; cbn; [constructor|exact I]. Qed.
Lemma num_eq_iff x y : num_eq x y = true <-> x = y.
Proof. unfold num_eq. destruct (Req_EM_T x y); split; congruence. Qed.
Lemma nums_eq_iff l m : nums_eq l m = true <-> l = m.
Proof. revert m. induction l as [|x l IH]; intros [|y m]; cbn; try (split; congruence). rewrite andb_true_iff, num_eq_iff, IH. split; [intros [-> ->]; reflexivity|intros H; injection H; auto]. Qed.
Lemma all_same x l : forallb (num_eq x) l = true <-> Forall (eq x) l.
Proof. rewrite forallb_forall, Forall_forall. split; intros H y I; specialize (H y I); apply num_eq_iff; exact H. Qed.
Lemma val_eq_agree v w : val_eq v w = true <-> agree v w.
Proof.
  destruct v as [|x|s|l], w as [|y|t|m]; cbn [val_eq]; try (split; [intros H; discriminate H|intros H; inversion H]).
  - split; [constructor|reflexivity].
  - rewrite num_eq_iff. split; [intros ->; constructor|intros H; inversion H; reflexivity].
  - rewrite all_same. split; [apply agree_left|intros H; inversion H; assumption].
  - rewrite String.eqb_eq. split; [intros ->; constructor|intros H; inversion H; reflexivity].
  - rewrite all_same. split; [apply agree_right|intros H; inversion H; assumption].
  - rewrite nums_eq_iff. split; [intros ->; constructor|intros H; inversion H; reflexivity].
Qed.
Lemma get_none k o : get k o = Err AttributeError <-> ~ In k (keys o).
Proof.
  unfold get, ToolsModel.lookup. induction o as [|[a v] o IH]; cbn [find fst keys map]; [split; auto|]. destruct (String.eqb_spec a k) as [->|N]; cbn [option_map snd].
  - split; [discriminate|intros H; exfalso; apply H; left; reflexivity].
  - rewrite IH. split; [intros H [E|E]; [contradiction|contradiction]|intros H E; apply H; right; exact E].
Qed.
Lemma get_some k v o : get k o = Ok v -> In (k, v) o.
Proof. unfold get, ToolsModel.lookup. induction o as [|[a w] o IH]; cbn [find fst]; [discriminate|]. destruct (String.eqb_spec a k) as [->|N]; cbn [option_map snd]; [intros H; injection H as ->; left; reflexivity|intros H; right; apply IH, H]. Qed.
Lemma get_in k v o : NoDup (keys o) -> In (k, v) o -> get k o = Ok v.
Proof.
  unfold get, ToolsModel.lookup. induction o as [|[a w] o IH]; intros N I; [contradiction|]. cbn [keys map fst] in N. inversion N as [|? ? N1 N2]; subst. cbn [find fst]. destruct (String.eqb_spec a k) as [->|Na]; cbn [option_map snd].
  - destruct I as [E|I]; [congruence|]. exfalso. apply N1. apply (in_map fst) in I. exact I.
  - destruct I as [E|I]; [congruence|]. apply IH; assumption.
Qed.
Lemma get_err k o e : get k o = Err e -> e = AttributeError.
Proof. unfold get. destruct (ToolsModel.lookup k o); congruence. Qed.
Lemma mem_iff k l : mem k l = true <-> In k l.
Proof. apply CompProps.mem_in. Qed.
Lemma obj_eq_iff o p : NoDup (keys o) -> NoDup (keys p) -> (obj_eq o p = true <-> forall k, alike (get k o) (get k p)).
Proof.
  intros No Np. unfold obj_eq, same_keys. rewrite !andb_true_iff, Nat.eqb_eq, !forallb_forall. split.
  - intros [[[L A] B] C] k. destruct (get k o) as [v|e] eqn:Eo.
    + apply get_some in Eo. specialize (C _ Eo). cbn [fst snd] in C. unfold get. destruct (ToolsModel.lookup k p) as [w|]; [|discriminate]. cbn [alike]. apply val_eq_agree, C.
    + destruct (get k p) as [w|e'] eqn:Ep; [|exact I]. exfalso. assert (e = AttributeError) by (eapply get_err; eauto). subst. apply get_none in Eo. apply Eo. apply mem_iff, B. apply get_some in Ep. apply (in_map fst) in Ep. exact Ep.
  - intros H. assert (S : forall k, In k (keys o) <-> In k (keys p)).
    { intros k. specialize (H k). destruct (get k o) as [v|e] eqn:Eo, (get k p) as [w|e'] eqn:Ep; cbn [alike] in H; try contradiction.
      - apply get_some, (in_map fst) in Eo. apply get_some, (in_map fst) in Ep. split; intros _; [exact Ep|exact Eo].
      - rewrite (get_err _ _ _ Eo) in Eo. rewrite (get_err _ _ _ Ep) in Ep. apply get_none in Eo. apply get_none in Ep. tauto. }
    split; [split; [split|]|].
    + assert (L1 := NoDup_incl_length No (fun k => proj1 (S k))). assert (L2 := NoDup_incl_length Np (fun k => proj2 (S k))). unfold keys in L1, L2. rewrite !map_length in L1, L2. lia.
    + intros k I. apply mem_iff, S, I.
    + intros k I. apply mem_iff, S, I.
    + intros [k v] I. cbn [fst snd]. specialize (H k). rewrite (get_in k v o No I) in H. unfold get in H. destruct (ToolsModel.lookup k p) as [w|]; [|contradiction]. cbn [alike] in H. apply val_eq_agree, H.
Qed.

(** Attributes of an object have different names. *)
Definition dict (o : obj) : Prop := NoDup (keys o).
Definition proper (h : list op) : Prop := forall o, In (Component o) h -> dict o.
Definition tidy (w : world) : Prop := (forall o, In o (heap w) -> dict o) /\ (forall x, In x (insts w) -> dict (plain x)).
Lemma dict_put k v o : dict o -> dict (put k v o). Proof. apply CompProps.nodup_put. Qed.
Lemma dict_extra l : forall o, dict o -> dict (fold_left (fun o e => put (fst e) (snd e) o) l o).
Proof. induction l as [|e l IH]; intros o D; [exact D|]. cbn [fold_left]. apply IH, dict_put, D. Qed.
Lemma in_set {A} n (x : A) l y : In y (set_nth n x l) -> y = x \/ In y l.
Proof. revert n. induction l as [|z l IH]; intros [|n]; cbn; try tauto; intros [H|H]; auto. destruct (IH n H); auto. Qed.
Lemma in_write c k v h o : In o (write c k v h) -> In o h \/ exists p, In p h /\ o = put k v p.
Proof. unfold write. destruct (nth_error h c) as [p|] eqn:E; [|auto]. intros H. apply in_set in H as [->|H]; [right; exists p; split; [eapply nth_error_In; eauto|reflexivity]|auto]. Qed.
Lemma dict_mono a m : made_mono a = Ok m -> dict m.
Proof. unfold made_mono, mono_init. destruct (ToolsModel.spacing _ _); cbn [bind]; [|discriminate]. intros H. injection H as <-. unfold dict. cbn. repeat constructor; cbn; intuition discriminate. Qed.
Lemma dict_ana a m : made_ana a = Ok m -> dict m.
Proof. unfold made_ana, ana_init, mono_init. destruct (ToolsModel.spacing _ _); cbn [bind]; [|discriminate]. intros H. injection H as <-. unfold dict. cbn. repeat constructor; cbn; intuition discriminate. Qed.
Lemma dict_sample : dict default_sample.
Proof. unfold dict, default_sample, sample_init. CompProps.nodup. Qed.
Lemma dict_dummy n : dict (dummy n). Proof. unfold dict, dummy. cbn. repeat constructor. intros []. Qed.
Lemma dict_plain a : dict (made_plain a).
Proof. unfold made_plain. apply dict_extra. unfold dict. CompProps.nodup. Qed.
Lemma tidy_step w o : (forall c, o = Component c -> dict c) -> tidy w -> tidy (perform w o).
Proof.
  intros Hc [TH TI]. unfold perform. destruct (step w o) as [w'|] eqn:E; [|split; assumption].
  assert (WR : forall c k v h, (forall o, In o h -> dict o) -> forall o, In o (write c k v h) -> dict o) by (intros c k v h D p I; apply in_write in I as [I|(q & I & ->)]; [apply D, I|apply dict_put, D, I]).
  destruct o as [o|a c|i s c|i s k v|c k v|i k v]; cbn [step] in E.
  - injection E as <-. split; [|exact TI]. intros p I. cbn [heap] in I. apply in_app_or in I as [I|[<-|[]]]; [apply TH, I|apply Hc; reflexivity].
  - destruct (made_mono a) as [m|] eqn:Em; [|discriminate]. destruct (made_ana a) as [an|] eqn:Ea; [|discriminate]. cbn [bind] in E. apply dict_mono in Em. apply dict_ana in Ea.
    assert (B : forall o, In o (heap w ++ [m; an; dummy "Detector"; dummy "Monitor"; dummy "Guide"]) -> dict o). { intros p I. apply in_app_or in I as [I|I]; [apply TH, I|]. cbn in I. destruct I as [<-|[<-|[<-|[<-|[<-|[]]]]]]; first [assumption|apply dict_dummy]. }
    destruct c as [c|].
    + destruct (nth_error (heap w) c) as [o|]; [|discriminate]. destruct (get "_u" o); [|discriminate]. cbn [bind] in E. destruct (get "_v" o); [|discriminate]. cbn [bind] in E. injection E as <-. split; cbn [heap insts]; [apply WR, WR, B|]. intros x I. apply in_app_or in I as [I|[<-|[]]]; [apply TI, I|apply dict_plain].
    + injection E as <-. split; cbn [heap insts]; intros x I; apply in_app_or in I as [I|[<-|[]]]; [apply B, I|apply dict_sample|apply TI, I|apply dict_plain].
  - destruct (nth_error (insts w) i) as [x|] eqn:Ei; [|discriminate]. destruct (nth_error (heap w) c); [|discriminate]. injection E as <-. split; [exact TH|]. intros y I. cbn [insts] in I. apply in_set in I as [->|I]; [apply nth_error_In in Ei; apply (TI x Ei)|apply TI, I].
  - destruct (nth_error (insts w) i); [|discriminate]. injection E as <-. split; [apply WR, TH|exact TI].
  - destruct (nth_error (heap w) c); [|discriminate]. injection E as <-. split; [apply WR, TH|exact TI].
  - destruct (nth_error (insts w) i) as [x|] eqn:Ei; [|discriminate]. injection E as <-. split; [exact TH|]. intros y I. cbn [insts] in I. apply in_set in I as [->|I]; [cbn [plain]; apply dict_put; apply nth_error_In in Ei; apply (TI x Ei)|apply TI, I].
Qed.
Lemma tidy_fold h : forall w, proper h -> tidy w -> tidy (fold_left perform h w).
Proof. induction h as [|o h IH]; intros w P T; [exact T|]. cbn [fold_left]. apply IH; [intros c I; apply P; right; exact I|]. apply tidy_step; [intros c ->; apply P; left; reflexivity|exact T]. Qed.
Lemma tidy_run h : proper h -> tidy (run h).
Proof. intros P. apply tidy_fold; [exact P|]. split; intros x []. Qed.

(** Instruments are equal exactly if no attribute, theirs or of a component, tells them apart. *)
Theorem C92_equal_iff : forall h i j, proper h -> i < List.length (insts (run h)) -> j < List.length (insts (run h)) ->
  exists b, inst_eq (run h) i j = Ok b /\
  (b = true <-> (forall k, alike (read_plain (run h) i k) (read_plain (run h) j k)) /\ forall s k, alike (read (run h) i s k) (read (run h) j s k)).
Proof.
  intros h i j P Li Lj. destruct (tidy_run h P) as [TH TI]. assert (S := ShareProps.sane_run h). set (w := run h) in *. clearbody w. unfold inst_eq, read, read_plain.
  destruct (nth_error (insts w) i) as [x|] eqn:Ei; [|apply nth_error_None in Ei; lia]. destruct (nth_error (insts w) j) as [y|] eqn:Ej; [|apply nth_error_None in Ej; lia]. eexists. split; [reflexivity|].
  rewrite andb_true_iff, (obj_eq_iff _ _ (TI x (nth_error_In _ _ Ei)) (TI y (nth_error_In _ _ Ej))).
  assert (C : forall s, comp_eq w x y s = true <-> forall k, alike (match nth_error (heap w) (at_ x s) with Some o => get k o | None => Err NameError end) (match nth_error (heap w) (at_ y s) with Some o => get k o | None => Err NameError end)).
  { intros s. unfold comp_eq. destruct (nth_error (heap w) (at_ x s)) as [o|] eqn:Eo; [|apply nth_error_None in Eo; specialize (S i x s Ei); lia]. destruct (nth_error (heap w) (at_ y s)) as [p|] eqn:Ep; [|apply nth_error_None in Ep; specialize (S j y s Ej); lia].
    apply obj_eq_iff; apply TH; eapply nth_error_In; eassumption. }
  split; intros [A B]; (split; [exact A|]).
  - intros s. apply C. rewrite forallb_forall in B. apply B. destruct s; cbn; tauto.
  - apply forallb_forall. intros s _. apply C. intros k. apply B.
Qed.
Print Assumptions C92_equal_iff.

Theorem C92_reflexive_symmetric : forall h i j, proper h -> i < List.length (insts (run h)) -> j < List.length (insts (run h)) ->
  inst_eq (run h) i i = Ok true /\ inst_eq (run h) i j = inst_eq (run h) j i.
Proof.
  intros h i j P Li Lj. destruct (C92_equal_iff h i i P Li Li) as (b & E & H). destruct (C92_equal_iff h i j P Li Lj) as (c & Ec & Hc). destruct (C92_equal_iff h j i P Lj Li) as (d & Ed & Hd). rewrite E, Ec, Ed. split.
  - f_equal. apply H. split; intros; apply alike_refl.
  - f_equal. apply eq_true_iff_eq. rewrite Hc, Hd. split; intros [A B]; split; intros; apply alike_sym; auto.
Qed.
Print Assumptions C92_reflexive_symmetric.

(** * Instruments used alike *)
(** What a history does to one instrument: the component or the instrument itself, the attribute and its value. *)
Definition deed (j : nat) (o : op) : list (option slot * string * value) :=
  match o with
  | Assign i s k v => if Nat.eqb i j then [(Some s, k, v)] else []
  | Plain i k v => if Nat.eqb i j then [(None, k, v)] else []
  | _ => []
  end.
Definition deeds (j : nat) (h : list op) := flat_map (deed j) h.
Definition undergo (f : ShareProps.own) (d : option slot * string * value) : ShareProps.own :=
  match d with
  | (Some s, k, v) => (fun t => if slot_eqb t s then put k v (fst f t) else fst f t, snd f)
  | (None, k, v) => (fst f, put k v (snd f))
  end.
Lemma deeds_fold j h : forall f, fold_left (ShareProps.own_step j) h f = fold_left undergo (deeds j h) f.
Proof. induction h as [|o h IH]; intros f; [reflexivity|]. unfold deeds. cbn [fold_left flat_map]. rewrite fold_left_app, IH. f_equal. destruct o; cbn [deed ShareProps.own_step]; try reflexivity; destruct (Nat.eqb i j); reflexivity. Qed.
Lemma length_step w o : List.length (insts w) <= List.length (insts (perform w o)).
Proof.
  unfold perform. destruct (step w o) as [w'|] eqn:E; [|lia]. destruct o as [o|a c|i s c|i s k v|c k v|i k v]; cbn [step] in E.
  - injection E as <-. cbn. lia.
  - destruct (made_mono a); [|discriminate]. destruct (made_ana a); [|discriminate]. cbn [bind] in E. destruct c as [c|].
    + destruct (nth_error (heap w) c) as [o|]; [|discriminate]. destruct (get "_u" o); [|discriminate]. cbn [bind] in E. destruct (get "_v" o); [|discriminate]. cbn [bind] in E. injection E as <-. cbn. rewrite app_length. lia.
    + injection E as <-. cbn. rewrite app_length. lia.
  - destruct (nth_error (insts w) i); [|discriminate]. destruct (nth_error (heap w) c); [|discriminate]. injection E as <-. cbn. rewrite ShareProps.set_nth_length. lia.
  - destruct (nth_error (insts w) i); [|discriminate]. injection E as <-. cbn. lia.
  - destruct (nth_error (heap w) c); [|discriminate]. injection E as <-. cbn. lia.
  - destruct (nth_error (insts w) i); [|discriminate]. injection E as <-. cbn. rewrite ShareProps.set_nth_length. lia.
Qed.
Lemma length_fold h : forall w, List.length (insts w) <= List.length (insts (fold_left perform h w)).
Proof. induction h as [|o h IH]; intros w; [cbn; lia|]. cbn [fold_left]. eapply Nat.le_trans; [apply length_step|apply IH]. Qed.
Lemma created_length h a c j : ShareProps.creates h a c j -> List.length (insts (perform (run h) (Create a c))) = S j.
Proof.
  intros [[w E] ->]. unfold perform. rewrite E. cbn [step] in E. destruct (made_mono a); [|discriminate]. destruct (made_ana a); [|discriminate]. cbn [bind] in E. destruct c as [c|].
  - destruct (nth_error (heap (run h)) c) as [o|]; [|discriminate]. destruct (get "_u" o); [|discriminate]. cbn [bind] in E. destruct (get "_v" o); [|discriminate]. cbn [bind] in E. injection E as <-. cbn. rewrite app_length. cbn. lia.
  - injection E as <-. cbn. rewrite app_length. cbn. lia.
Qed.
(** Instruments without a sample of the user's, made with the same arguments and given the same assignments, are equal, whatever is done to other ones. *)
Theorem C92_used_alike : forall h1 a h2 h3 i j, let h := h1 ++ Create a None :: h2 ++ Create a None :: h3 in
  proper h -> Forall ShareProps.private h -> ShareProps.creates h1 a None i -> ShareProps.creates (h1 ++ Create a None :: h2) a None j ->
  deeds i (h2 ++ h3) = deeds j h3 -> inst_eq (run h) i j = Ok true.
Proof.
  intros h1 a h2 h3 i j h P F Ci Cj D.
  assert (Eh : h = (h1 ++ Create a None :: h2) ++ Create a None :: h3) by (unfold h; rewrite <- app_assoc; reflexivity).
  assert (Li : i < List.length (insts (run h))). { unfold h. rewrite ShareProps.run_app. cbn [fold_left]. eapply Nat.lt_le_trans; [|apply length_fold]. rewrite (created_length _ _ _ _ Ci). lia. }
  assert (Lj : j < List.length (insts (run h))). { rewrite Eh, ShareProps.run_app. cbn [fold_left]. eapply Nat.lt_le_trans; [|apply length_fold]. rewrite (created_length _ _ _ _ Cj). lia. }
  destruct (C92_equal_iff h i j P Li Lj) as (b & -> & H). f_equal. apply H.
  assert (exists f, ShareProps.fresh a f) as (f & Hf).
  { destruct Ci as [[w E] _]. cbn [step] in E. unfold ShareProps.fresh. destruct (made_mono a) as [m|]; [|discriminate]. destruct (made_ana a) as [an|]; [|discriminate].
    exists (fun s => match s with SMono => m | SAna => an | SSample => default_sample | SDetector => dummy "Detector" | SMonitor => dummy "Monitor" | SGuide => dummy "Guide" end, made_plain a). repeat split. }
  assert (F1 : Forall ShareProps.private h1) by (unfold h in F; apply Forall_app in F; apply F).
  assert (F2 : Forall ShareProps.private (h2 ++ Create a None :: h3)) by (unfold h in F; apply Forall_app in F as [_ F]; inversion F; assumption).
  assert (F3 : Forall ShareProps.private (h1 ++ Create a None :: h2)) by (rewrite Eh in F; apply Forall_app in F; apply F).
  assert (F4 : Forall ShareProps.private h3) by (rewrite Eh in F; apply Forall_app in F as [_ F]; inversion F; assumption).
  assert (G : fold_left (ShareProps.own_step i) (h2 ++ Create a None :: h3) f = fold_left (ShareProps.own_step j) h3 f).
  { rewrite !deeds_fold. f_equal. rewrite <- D. unfold deeds. rewrite !flat_map_app. reflexivity. }
  assert (I1 := fun s k => ShareProps.C90_independent h1 a (h2 ++ Create a None :: h3) i f s k F1 F2 Ci Hf).
  assert (I2 := fun s k => ShareProps.C90_independent (h1 ++ Create a None :: h2) a h3 j f s k F3 F4 Cj Hf).
  rewrite <- Eh in I2. fold h in I1. cbv zeta in I1, I2. rewrite G in I1. split.
  - intros k. rewrite (proj2 (I1 SMono k)), (proj2 (I2 SMono k)). apply alike_refl.
  - intros s k. rewrite (proj1 (I1 s k)), (proj1 (I2 s k)). apply alike_refl.
Qed.
Print Assumptions C92_used_alike.

(** * One sample *)
Definition on_sample (c i j : nat) (o : op) : Prop := match o with Touch c' _ _ => c' = c | Assign i' SSample _ _ => i' = i \/ i' = j | _ => False end.
Definition twins (w : world) (i j c : nat) : Prop := exists x y, nth_error (insts w) i = Some x /\ nth_error (insts w) j = Some y /\ plain x = plain y /\ at_ x SSample = c /\ at_ y SSample = c /\ c < List.length (heap w) /\
  forall s, s <> SSample -> at_ x s <> c /\ at_ y s <> c /\ nth_error (heap w) (at_ x s) = nth_error (heap w) (at_ y s).
Lemma twins_write w i j c k v : twins w i j c -> twins (mkWorld (write c k v (heap w)) (insts w)) i j c.
Proof.
  intros (x & y & Hx & Hy & Hp & Ax & Ay & Lc & O). exists x, y. cbn [insts heap]. rewrite ShareProps.write_length. repeat (split; [assumption|]). intros s N. destruct (O s N) as (O1 & O2 & O3). split; [exact O1|]. split; [exact O2|]. rewrite !ShareProps.nth_write.
  destruct (Nat.eqb_spec (at_ x s) c); [contradiction|]. destruct (Nat.eqb_spec (at_ y s) c); [contradiction|]. exact O3.
Qed.
Lemma twins_step w i j c o : on_sample c i j o -> twins w i j c -> twins (perform w o) i j c.
Proof.
  intros S T. assert (T' := T). destruct T' as (x & y & Hx & Hy & _ & Ax & Ay & Lc & _). destruct o as [| | |i' s k v|c' k v|]; cbn [on_sample] in S; try contradiction.
  - destruct s; try contradiction. unfold perform. cbn [step]. destruct S as [->| ->]; rewrite ?Hx, ?Hy, ?Ax, ?Ay; apply twins_write, T.
  - subst c'. unfold perform. cbn [step]. destruct (nth_error (heap w) c); [apply twins_write|]; exact T.
Qed.
Lemma twins_fold i j c h : forall w, Forall (on_sample c i j) h -> twins w i j c -> twins (fold_left perform h w) i j c.
Proof. induction h as [|o h IH]; intros w F T; [exact T|]. inversion F; subst. cbn [fold_left]. apply IH; [assumption|]. apply twins_step; assumption. Qed.
Lemma made_at w a c w' : step w (Create a (Some c)) = Ok w' -> exists m an, made_mono a = Ok m /\ made_ana a = Ok an /\ c < List.length (heap w) /\
  insts w' = insts w ++ [mkInst (five (List.length (heap w)) c) (made_plain a)] /\ List.length (heap w') = List.length (heap w) + 5 /\
  forall n, n <> c -> nth_error (heap w') n = nth_error (heap w ++ [m; an; dummy "Detector"; dummy "Monitor"; dummy "Guide"]) n.
Proof.
  cbn [step]. destruct (made_mono a) as [m|]; [|discriminate]. destruct (made_ana a) as [an|]; [|discriminate]. cbn [bind]. destruct (nth_error (heap w) c) as [o|] eqn:Eo; [|discriminate]. destruct (get "_u" o) as [u|]; [|discriminate]. cbn [bind]. destruct (get "_v" o) as [v|]; [|discriminate]. cbn [bind]. intros E. injection E as <-.
  exists m, an. split; [reflexivity|]. split; [reflexivity|]. split; [apply nth_error_Some; congruence|]. cbn [insts heap]. split; [reflexivity|]. rewrite !ShareProps.write_length, app_length. split; [reflexivity|].
  intros n N. rewrite !ShareProps.nth_write. destruct (Nat.eqb_spec n c); [contradiction|reflexivity].
Qed.
(** Two instruments made with the same arguments for one sample are equal, and remain so whatever is done to the sample. *)
Theorem C92_one_sample : forall h a c i h2, let h' := h ++ [Create a (Some c); Create a (Some c)] ++ h2 in
  proper h' -> ShareProps.creates h a (Some c) i -> Forall (on_sample c i (S i)) h2 -> inst_eq (run h') i (S i) = Ok true.
Proof.
  intros h a c i h2 h' P C F.
  assert (T : twins (run h') i (S i) c).
  { unfold h'. rewrite ShareProps.run_app, fold_left_app. apply twins_fold; [exact F|]. cbn [fold_left]. destruct C as [[w E] ->]. unfold perform at 2. rewrite E. destruct (made_at _ _ _ _ E) as (m & an & Em & Ea & Lc & Ei & El & Eh).
    assert (exists w', step w (Create a (Some c)) = Ok w') as [w' E'].
    { clear - E Em Ea. cbn [step] in E |- *. rewrite Em, Ea in *. cbn [bind] in *. destruct (nth_error (heap (run h)) c) as [o|] eqn:Eo; [|discriminate]. destruct (get "_u" o) as [u|] eqn:Eu; [|discriminate]. cbn [bind] in E. destruct (get "_v" o) as [v|] eqn:Ev; [|discriminate]. cbn [bind] in E. injection E as <-. cbn [heap].
      rewrite !ShareProps.nth_write, Nat.eqb_refl, nth_error_app1, Eo by (apply nth_error_Some; congruence). cbn [option_map]. rewrite !ShareProps.get_put. cbn. eexists. reflexivity. }
    unfold perform. rewrite E'. destruct (made_at _ _ _ _ E') as (m' & an' & Em' & Ea' & Lc' & Ei' & El' & Eh'). rewrite Em in Em'. rewrite Ea in Ea'. injection Em' as <-. injection Ea' as <-.
    set (n := List.length (heap (run h))) in *. set (N := List.length (insts (run h))) in *. rewrite El in *.
    exists (mkInst (five n c) (made_plain a)), (mkInst (five (n + 5) c) (made_plain a)). rewrite Ei', Ei, <- app_assoc. cbn [app].
    split; [rewrite nth_error_app2 by (unfold N; lia); unfold N; rewrite Nat.sub_diag; reflexivity|].
    split; [rewrite nth_error_app2 by (unfold N; lia); unfold N; replace (S _ - _) with 1 by lia; reflexivity|].
    split; [reflexivity|]. split; [reflexivity|]. split; [reflexivity|]. split; [lia|].
    intros s Ns. cbn [at_].
    assert (G1 : n <= five n c s < n + 5) by (destruct s; try contradiction; cbn [five]; lia). assert (G2 : five (n + 5) c s = five n c s + 5) by (destruct s; try contradiction; cbn [five]; lia).
    split; [lia|]. split; [lia|]. rewrite Eh', Eh' by lia. rewrite nth_error_app1, Eh by lia. rewrite !nth_error_app2 by lia. fold n. rewrite El, G2. f_equal. lia. }
  destruct T as (x & y & Hx & Hy & Hp & Ax & Ay & Lc & O).
  assert (Li : i < List.length (insts (run h'))) by (apply nth_error_Some; congruence). assert (Lj : S i < List.length (insts (run h'))) by (apply nth_error_Some; congruence).
  destruct (C92_equal_iff h' i (S i) P Li Lj) as (b & -> & H). f_equal. apply H. unfold read, read_plain. rewrite Hx, Hy, Hp. split; [intros; apply alike_refl|]. intros s k.
  assert (nth_error (heap (run h')) (at_ x s) = nth_error (heap (run h')) (at_ y s)) as -> by (destruct s; try (apply O; discriminate); congruence). apply alike_refl.
Qed.
Print Assumptions C92_one_sample.

(** * A calculation *)
Lemma plain_read w i k v j k' : i < List.length (insts w) -> read_plain (perform w (Plain i k v)) j k' = if (Nat.eqb j i && String.eqb k' k)%bool then Ok v else read_plain w j k'.
Proof.
  intros L. unfold perform. cbn [step]. destruct (nth_error (insts w) i) as [x|] eqn:E; [|apply nth_error_None in E; lia]. unfold read_plain. cbn [insts]. rewrite ShareProps.nth_set. destruct (Nat.eqb_spec j i) as [->|N]; cbn [andb]; [|reflexivity]. rewrite E. cbn [option_map plain]. apply ShareProps.get_put.
Qed.
Lemma plain_part w i k v j s k' : read (perform w (Plain i k v)) j s k' = read w j s k'.
Proof. unfold perform. cbn [step]. destruct (nth_error (insts w) i) as [x|] eqn:E; [|reflexivity]. unfold read. cbn [insts heap]. rewrite ShareProps.nth_set. destruct (Nat.eqb_spec j i) as [->|N]; [|reflexivity]. rewrite E. reflexivity. Qed.
Lemma plain_length w i k v : List.length (insts (perform w (Plain i k v))) = List.length (insts w).
Proof. unfold perform. cbn [step]. destruct (nth_error (insts w) i); [|reflexivity]. cbn. apply ShareProps.set_nth_length. Qed.
Definition stored (r : outcome) (k : string) : option value :=
  if String.eqb k "RM" then Some (r_RM r) else if String.eqb k "RMS" then Some (r_RMS r) else if String.eqb k "R0" then Some (r_R0 r) else if String.eqb k "W" then Some (r_w r) else
  if String.eqb k "L" then Some (r_l r) else if String.eqb k "K" then Some (r_k r) else if String.eqb k "H" then Some (r_h r) else if String.eqb k "HKLE" then Some (r_hkle r) else None.
Lemma calc_length w i r : List.length (insts (fold_left perform (calculation i r) w)) = List.length (insts w).
Proof. unfold calculation. cbn [fold_left]. rewrite !plain_length. reflexivity. Qed.
Lemma calc_read w i r j k : i < List.length (insts w) -> read_plain (fold_left perform (calculation i r) w) j k = if Nat.eqb j i then match stored r k with Some v => Ok v | None => read_plain w j k end else read_plain w j k.
Proof.
  intros L. unfold calculation. cbn [fold_left]. rewrite !plain_read by (rewrite ?plain_length; exact L). unfold stored.
  destruct (Nat.eqb j i); cbn [andb]; [|reflexivity].
  repeat match goal with |- context [if ?b then Ok _ else _] => destruct b; [reflexivity|] end. reflexivity.
Qed.
Lemma calc_part w i r j s k : read (fold_left perform (calculation i r) w) j s k = read w j s k.
Proof. unfold calculation. cbn [fold_left]. rewrite !plain_part. reflexivity. Qed.
Lemma proper_calc h i r : proper h -> proper (h ++ calculation i r).
Proof. intros P o I. apply in_app_or in I as [I|I]; [apply P, I|]. cbn in I. intuition discriminate. Qed.
(** A calculation shows in a comparison with an instrument that has not done one, or has done one with another outcome. *)
Theorem C92_calculation : forall h i j r, proper h -> i < List.length (insts (run h)) -> j < List.length (insts (run h)) -> i <> j ->
  ((exists e, read_plain (run h) j "RMS" = Err e) -> inst_eq (run (h ++ calculation i r)) i j = Ok false) /\
  (forall r', ~ agree (r_RMS r) (r_RMS r') -> inst_eq (run (h ++ calculation i r ++ calculation j r')) i j = Ok false) /\
  (inst_eq (run h) i j = Ok true -> inst_eq (run (h ++ calculation i r ++ calculation j r)) i j = Ok true).
Proof.
  intros h i j r P Li Lj N.
  assert (P2 : forall r', proper (h ++ calculation i r ++ calculation j r')) by (intros r'; rewrite app_assoc; apply proper_calc, proper_calc, P).
  assert (L2 : forall r', List.length (insts (run (h ++ calculation i r ++ calculation j r'))) = List.length (insts (run h))) by (intros r'; rewrite ShareProps.run_app, fold_left_app, !calc_length; reflexivity).
  assert (R2 : forall r' m k, read_plain (run (h ++ calculation i r ++ calculation j r')) m k = if Nat.eqb m j then match stored r' k with Some v => Ok v | None => read_plain (run h) m k end else if Nat.eqb m i then match stored r k with Some v => Ok v | None => read_plain (run h) m k end else read_plain (run h) m k).
  { intros r' m k. rewrite ShareProps.run_app, fold_left_app, calc_read by (rewrite calc_length; exact Lj). rewrite !calc_read by exact Li. destruct (Nat.eqb_spec m j) as [->|]; [|reflexivity]. destruct (Nat.eqb_spec j i); [congruence|reflexivity]. }
  split; [|split].
  - intros [e He]. assert (Pc := proper_calc h i r P). assert (Lc : List.length (insts (run (h ++ calculation i r))) = List.length (insts (run h))) by (rewrite ShareProps.run_app, calc_length; reflexivity).
    destruct (C92_equal_iff _ i j Pc ltac:(lia) ltac:(lia)) as (b & -> & H). destruct b; [|reflexivity]. exfalso. destruct (proj1 H eq_refl) as [A _]. specialize (A "RMS"). rewrite ShareProps.run_app, !calc_read, Nat.eqb_refl in A by exact Li. destruct (Nat.eqb_spec j i); [congruence|]. rewrite He in A. exact A.
  - intros r' Na. destruct (C92_equal_iff _ i j (P2 r') ltac:(rewrite L2; lia) ltac:(rewrite L2; lia)) as (b & -> & H). destruct b; [|reflexivity]. exfalso. destruct (proj1 H eq_refl) as [A _]. specialize (A "RMS"). rewrite !R2, !Nat.eqb_refl in A. destruct (Nat.eqb_spec i j); [congruence|]. exact (Na A).
  - intros Eq. destruct (C92_equal_iff _ i j P Li Lj) as (b0 & E0 & H0). rewrite E0 in Eq. injection Eq as ->. destruct (proj1 H0 eq_refl) as [A B].
    destruct (C92_equal_iff _ i j (P2 r) ltac:(rewrite L2; lia) ltac:(rewrite L2; lia)) as (b & -> & H). f_equal. apply H. split.
    + intros k. rewrite !R2, !Nat.eqb_refl. destruct (Nat.eqb_spec i j); [congruence|]. destruct (stored r k); [apply alike_refl|apply A].
    + intros s k. rewrite ShareProps.run_app, fold_left_app, !calc_part. apply B.
Qed.
Print Assumptions C92_calculation.

(** Equality is not transitive: a collimation given as one number equals every list of this number. *)
Theorem C92_transitive_refuted : exists h i j k, proper h /\ inst_eq (run h) i j = Ok true /\ inst_eq (run h) j k = Ok true /\ inst_eq (run h) i k = Ok false.
Proof.
  destruct ShareProps.pg_mono as [m Em], ShareProps.pg_ana as [an Ea]. exists [Create ShareProps.pg None; Create ShareProps.pg None; Create ShareProps.pg None; Plain 1 "_hcol" (Num 40); Plain 2 "_hcol" (Vec [40; 40]%R)], 0, 1, 2.
  set (h := [_; _; _; _; _]). assert (P : proper h) by (intros o; unfold h; cbn; intuition discriminate).
  assert (E : run h = mkWorld ([m; an; dummy "Detector"; dummy "Monitor"; dummy "Guide"; default_sample] ++ [m; an; dummy "Detector"; dummy "Monitor"; dummy "Guide"; default_sample] ++ [m; an; dummy "Detector"; dummy "Monitor"; dummy "Guide"; default_sample])
     [mkInst (five 0 5) (made_plain ShareProps.pg); mkInst (five 6 11) (put "_hcol" (Num 40) (made_plain ShareProps.pg)); mkInst (five 12 17) (put "_hcol" (Vec [40; 40]%R) (made_plain ShareProps.pg))]).
  { unfold h, run, perform. cbn [fold_left step]. rewrite Em, Ea. cbn [bind]. cbn. reflexivity. }
  assert (L : List.length (insts (run h)) = 3) by (rewrite E; reflexivity).
  split; [exact P|].
  assert (R : forall i s k, i < 3 -> read (run h) i s k = get k match s with SMono => m | SAna => an | SSample => default_sample | SDetector => dummy "Detector" | SMonitor => dummy "Monitor" | SGuide => dummy "Guide" end).
  { intros i s k Li. rewrite E. destruct i as [|[|[|i]]]; [| | |lia]; destruct s; reflexivity. }
  assert (Q : forall i k, i < 3 -> read_plain (run h) i k = if String.eqb k "_hcol" then Ok match i with 0 => Vec [40; 40; 40; 40]%R | 1 => Num 40 | _ => Vec [40; 40]%R end else get k (made_plain ShareProps.pg)).
  { intros i k Li. rewrite E. unfold read_plain. destruct i as [|[|[|i]]]; [| | |lia]; cbn [insts nth_error plain]; rewrite ?ShareProps.get_put; destruct (String.eqb_spec k "_hcol") as [->|]; reflexivity. }
  assert (A4 : agree (Vec [40; 40; 40; 40]%R) (Num 40)) by (apply agree_right; repeat constructor). assert (A2 : agree (Num 40) (Vec [40; 40]%R)) by (apply agree_left; repeat constructor).
  destruct (C92_equal_iff h 0 1 P) as (b & -> & H); [lia|lia|]. destruct (C92_equal_iff h 1 2 P) as (c & -> & H'); [lia|lia|]. destruct (C92_equal_iff h 0 2 P) as (d & -> & H''); [lia|lia|]. split; [|split]; f_equal.
  - apply H. split; [intros k; rewrite !Q by lia; destruct (String.eqb k "_hcol"); [exact A4|apply alike_refl]|intros s k; rewrite !R by lia; apply alike_refl].
  - apply H'. split; [intros k; rewrite !Q by lia; destruct (String.eqb k "_hcol"); [exact A2|apply alike_refl]|intros s k; rewrite !R by lia; apply alike_refl].
  - destruct d; [|reflexivity]. exfalso. destruct (proj1 H'' eq_refl) as [A _]. specialize (A "_hcol"). rewrite !Q in A by lia. cbn in A. inversion A.
Qed.
Print Assumptions C92_transitive_refuted.

(** Hypotheses of the theorems: instruments with the same deeds in another order of making, one sample turned, and one calculation. *)
Example C92_alike_case : let h2 := [Plain 0 "_efixed" (Num 5)] in let h3 := [Assign 0 SMono "mosaic" (Num 30); Plain 1 "_efixed" (Num 5); Assign 1 SMono "mosaic" (Num 30)] in
  let a := ShareProps.pg in ShareProps.creates [] a None 0 /\ ShareProps.creates ([] ++ Create a None :: h2) a None 1 /\ deeds 0 (h2 ++ h3) = deeds 1 h3 /\
  proper ([] ++ Create a None :: h2 ++ Create a None :: h3) /\ Forall ShareProps.private ([] ++ Create a None :: h2 ++ Create a None :: h3).
Proof.
  destruct ShareProps.pg_mono as [m Em], ShareProps.pg_ana as [an Ea]. split; [|split; [|split; [|split]]].
  - split; [eexists|]; ShareProps.go Em Ea; reflexivity.
  - split; [eexists|]; ShareProps.go Em Ea; reflexivity.
  - reflexivity.
  - intros o. cbn. intuition discriminate.
  - cbn. repeat constructor.
Qed.
Example C92_sample_case : proper ([Component ShareProps.crystal] ++ [Create ShareProps.pg (Some 0); Create ShareProps.pg (Some 0)] ++ [orient1 1 (Vec [1; 1; 0]%R); Touch 0 "mosaic" (Num 60)]) /\
  ShareProps.creates [Component ShareProps.crystal] ShareProps.pg (Some 0) 0 /\ Forall (on_sample 0 0 1) [orient1 1 (Vec [1; 1; 0]%R); Touch 0 "mosaic" (Num 60)].
Proof.
  split; [|split; [exact ShareProps.C90_created|constructor; [right; reflexivity|constructor; [reflexivity|constructor]]]]. intros o I. cbn in I. destruct I as [E|I]; [injection E as <-; unfold dict; cbn; repeat constructor; cbn; intuition discriminate|destruct I as [E|[E|[E|[E|[]]]]]; discriminate E].
Qed.
Example C92_calculation_case : let h := [Create ShareProps.pg None; Create ShareProps.pg None] in proper h /\ 1 < List.length (insts (run h)) /\ inst_eq (run h) 0 1 = Ok true /\ (exists e, read_plain (run h) 1 "RMS" = Err e) /\ ~ agree (Num 1) (Num 2).
Proof.
  destruct ShareProps.pg_mono as [m Em], ShareProps.pg_ana as [an Ea]. split; [intros o; cbn; intuition discriminate|]. split; [ShareProps.go Em Ea; lia|]. split; [|split].
  - apply (C92_used_alike [] ShareProps.pg [] [] 0 1); [intros o; cbn; intuition discriminate|cbn; repeat constructor| | |reflexivity]; (split; [eexists|]; ShareProps.go Em Ea; reflexivity).
  - ShareProps.go Em Ea. eexists. reflexivity.
  - intros A. inversion A; lra.
Qed.

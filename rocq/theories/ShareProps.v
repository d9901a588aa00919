(** C90: which objects triple-axis instruments share. *)
From Coq Require Import String List ZArith Reals Arith Lia Lra.
From Verif Require Import Base LinAlg EnergyModel LatticeModel ToolsModel CompModel ShareModel.
Import ListNotations.
Local Open Scope string_scope.
Local Open Scope list_scope.

Lemma slot_eqb_iff s t : slot_eqb s t = true <-> s = t.
Proof. destruct s, t; cbn; split; congruence. Qed.
Lemma set_nth_length {A} n (x : A) l : List.length (set_nth n x l) = List.length l.
Proof. revert n. induction l as [|y l IH]; intros [|n]; cbn; auto. Qed.
Lemma nth_set {A} n m (x : A) l : nth_error (set_nth n x l) m = if Nat.eqb m n then option_map (fun _ => x) (nth_error l m) else nth_error l m.
Proof.
  revert n m. induction l as [|y l IH]; intros n m; [destruct n, m; cbn; try destruct (Nat.eqb m n); reflexivity|]. destruct n as [|n], m as [|m]; try reflexivity. cbn. apply IH.
Qed.
Lemma get_put k k' v o : get k (put k' v o) = if String.eqb k k' then Ok v else get k o.
Proof.
  unfold get, lookup. induction o as [|[x y] o IH]; cbn [put find fst].
  - rewrite (String.eqb_sym k' k). destruct (String.eqb k k'); reflexivity.
  - destruct (String.eqb_spec x k') as [->|N]; cbn [find fst].
    + rewrite (String.eqb_sym k' k). destruct (String.eqb k k'); reflexivity.
    + destruct (String.eqb_spec x k) as [->|M]; [destruct (String.eqb_spec k k'); [congruence|reflexivity]|exact IH].
Qed.
Lemma nth_write c k v h m : nth_error (write c k v h) m = if Nat.eqb m c then option_map (put k v) (nth_error h m) else nth_error h m.
Proof.
  unfold write. destruct (nth_error h c) as [o|] eqn:E.
  - rewrite nth_set. destruct (Nat.eqb_spec m c) as [->|]; [rewrite E|]; reflexivity.
  - destruct (Nat.eqb_spec m c) as [->|]; [rewrite E|]; reflexivity.
Qed.
Lemma write_length c k v h : List.length (write c k v h) = List.length h.
Proof. unfold write. destruct (nth_error h c); [apply set_nth_length|reflexivity]. Qed.

(** Every component of an instrument exists. *)
Definition sane (w : world) : Prop := forall i x s, nth_error (insts w) i = Some x -> at_ x s < List.length (heap w).
Lemma nth_app_end {A} (l : list A) x i y : nth_error (l ++ [x]) i = Some y -> (nth_error l i = Some y /\ i < List.length l) \/ (i = List.length l /\ y = x).
Proof.
  destruct (Nat.lt_ge_cases i (List.length l)) as [L|L]; [rewrite nth_error_app1 by exact L; auto|]. rewrite nth_error_app2 by exact L. destruct (i - List.length l) as [|n] eqn:E; cbn; [|destruct n; discriminate].
  intros H. injection H as <-. right. split; [lia|reflexivity].
Qed.
Lemma made_some w a c w' : step w (Create a c) = Ok w' -> exists m an, made_mono a = Ok m /\ made_ana a = Ok an.
Proof. cbn [step]. destruct (made_mono a) as [m|]; [|discriminate]. destruct (made_ana a) as [an|]; [|discriminate]. eauto. Qed.
Lemma sane_step w o : sane w -> sane (perform w o).
Proof.
  intros S. unfold perform. destruct (step w o) as [w'|] eqn:E; [|exact S]. destruct o as [o|a c|i s c|i s k v|c k v|i k v]; cbn [step] in E.
  - injection E as <-. intros i x s H. cbn [heap insts] in *. rewrite app_length. specialize (S i x s H). cbn. lia.
  - destruct (made_mono a) as [m|]; [|discriminate]. destruct (made_ana a) as [an|]; [|discriminate]. cbn [bind] in E. destruct c as [c|].
    + destruct (nth_error (heap w) c) as [o|] eqn:Ec; [|discriminate]. destruct (get "_u" o) as [u|]; [|discriminate]. cbn [bind] in E. destruct (get "_v" o) as [v|]; [|discriminate]. cbn [bind] in E. injection E as <-.
      intros i x s H. cbn [heap insts] in *. rewrite !write_length, app_length. cbn [List.length]. assert (Lc : c < List.length (heap w)) by (apply nth_error_Some; congruence). apply nth_app_end in H as [[H _]|[_ ->]]; [specialize (S i x s H); lia|]. cbn [at_]. destruct s; cbn; lia.
    + injection E as <-. intros i x s H. cbn [heap insts] in *. rewrite !app_length. cbn [List.length]. apply nth_app_end in H as [[H _]|[_ ->]]; [specialize (S i x s H); lia|]. cbn [at_]. destruct s; cbn; lia.
  - destruct (nth_error (insts w) i) as [y|] eqn:Ei; [|discriminate]. destruct (nth_error (heap w) c) eqn:Ec; [|discriminate]. injection E as <-. intros j x t H. cbn [heap insts] in *. rewrite nth_set in H. assert (Lc : c < List.length (heap w)) by (apply nth_error_Some; congruence).
    destruct (Nat.eqb_spec j i) as [->|]; [|apply (S j x t H)]. rewrite Ei in H. injection H as <-. cbn [at_]. destruct (slot_eqb t s); [exact Lc|apply (S i y t Ei)].
  - destruct (nth_error (insts w) i) as [y|] eqn:Ei; [|discriminate]. injection E as <-. intros j x t H. cbn [heap insts] in *. rewrite write_length. apply (S j x t H).
  - destruct (nth_error (heap w) c) eqn:Ec; [|discriminate]. injection E as <-. intros j x t H. cbn [heap insts] in *. rewrite write_length. apply (S j x t H).
  - destruct (nth_error (insts w) i) as [y|] eqn:Ei; [|discriminate]. injection E as <-. intros j x t H. cbn [heap insts] in *. rewrite nth_set in H. destruct (Nat.eqb_spec j i) as [->|]; [|apply (S j x t H)]. rewrite Ei in H. injection H as <-. apply (S i y t Ei).
Qed.
Lemma run_app h1 h2 : run (h1 ++ h2) = fold_left perform h2 (run h1). Proof. unfold run. apply fold_left_app. Qed.
Lemma sane_fold h : forall w, sane w -> sane (fold_left perform h w).
Proof. induction h as [|o h IH]; intros w S; [exact S|]. cbn [fold_left]. apply IH, sane_step, S. Qed.
Lemma sane_run h : sane (run h).
Proof. apply sane_fold. intros [|i] x s H; discriminate. Qed.

(** * Assignments to a component reach the instruments that have this component, and nothing else *)
Definition same_component (w : world) (i : nat) (s : slot) (j : nat) (t : slot) : Prop :=
  exists x y, nth_error (insts w) i = Some x /\ nth_error (insts w) j = Some y /\ at_ x s = at_ y t.
Theorem C90_assignment : forall h i s k v j t k', i < List.length (insts (run h)) -> j < List.length (insts (run h)) ->
  let w := run h in let w' := run (h ++ [Assign i s k v]) in
  (same_component w i s j t -> read w' j t k = Ok v) /\
  ((~ same_component w i s j t \/ k' <> k) -> read w' j t k' = read w j t k') /\ (forall k', read_plain w' j k' = read_plain w j k').
Proof.
  intros h i s k v j t k' Hi Hj w w'. assert (S := sane_run h). fold w in S, Hi, Hj. unfold w'. rewrite run_app. cbn [fold_left]. fold w. clearbody w. unfold perform, same_component. cbn [step].
  destruct (nth_error (insts w) i) as [x|] eqn:Ei; [|apply nth_error_None in Ei; lia]. destruct (nth_error (insts w) j) as [y|] eqn:Ej; [|apply nth_error_None in Ej; lia]. unfold read, read_plain. cbn [insts heap]. rewrite Ej. split; [|split; [|reflexivity]].
  - intros (x' & y' & Ex & Ey & E). injection Ex as <-. injection Ey as <-. rewrite nth_write, E, Nat.eqb_refl. destruct (nth_error (heap w) (at_ y t)) as [o|] eqn:Eo; [|apply nth_error_None in Eo; specialize (S j y t Ej); lia]. cbn [option_map]. rewrite get_put, String.eqb_refl. reflexivity.
  - intros D. rewrite nth_write. destruct (Nat.eqb_spec (at_ y t) (at_ x s)) as [E|_]; [|reflexivity]. destruct D as [D|D]; [exfalso; apply D; exists x, y; auto|]. destruct (nth_error (heap w) (at_ y t)) as [o|]; [|reflexivity]. cbn [option_map]. rewrite get_put. destruct (String.eqb_spec k' k); [contradiction|reflexivity].
Qed.
Print Assumptions C90_assignment.

(** Assigning an orientation of an instrument sets this vector of its sample, and leaves the other. *)
Theorem C90_orientation : forall h i v, i < List.length (insts (run h)) -> let w := run h in
  (read (run (h ++ [orient1 i v])) i SSample "_u" = Ok v /\ read (run (h ++ [orient1 i v])) i SSample "_v" = read w i SSample "_v") /\
  (read (run (h ++ [orient2 i v])) i SSample "_v" = Ok v /\ read (run (h ++ [orient2 i v])) i SSample "_u" = read w i SSample "_u").
Proof.
  intros h i v H w. assert (S : same_component w i SSample i SSample) by (unfold w; destruct (nth_error (insts (run h)) i) as [x|] eqn:E; [exists x, x; auto|apply nth_error_None in E; lia]).
  split; split; try (apply (C90_assignment h i SSample _ v i SSample ""); assumption); apply (C90_assignment h i SSample _ v i SSample _ H H); right; discriminate.
Qed.
Print Assumptions C90_orientation.

(** * Instruments made with one sample have one orientation *)
Definition hands_sample (o : op) : bool := match o with Hand _ SSample _ => true | _ => false end.
Definition keeps (w w' : world) : Prop := forall i x, nth_error (insts w) i = Some x -> exists x', nth_error (insts w') i = Some x' /\ at_ x' SSample = at_ x SSample.
Lemma keeps_step w o : hands_sample o = false -> keeps w (perform w o).
Proof.
  intros Hd i x H. unfold perform. destruct (step w o) as [w'|] eqn:E; [|eauto]. destruct o as [o|a c|j s c|j s k v|c k v|j k v]; cbn [step] in E.
  - injection E as <-. eauto.
  - assert (A : forall l y, nth_error (insts (mkWorld l (insts w ++ [y]))) i = Some x). { intros l y. cbn [insts]. rewrite nth_error_app1; [exact H|]. apply nth_error_Some. congruence. }
    destruct (made_mono a) as [m|]; [|discriminate]. destruct (made_ana a) as [an|]; [|discriminate]. cbn [bind] in E. destruct c as [c|].
    + destruct (nth_error (heap w) c) as [o|]; [|discriminate]. destruct (get "_u" o); [|discriminate]. destruct (get "_v" o); [|discriminate]. cbn [bind] in E. injection E as <-. exists x. split; [apply A|reflexivity].
    + injection E as <-. exists x. split; [apply A|reflexivity].
  - destruct (nth_error (insts w) j) as [y|] eqn:Ej; [|discriminate]. destruct (nth_error (heap w) c); [|discriminate]. injection E as <-. cbn [insts]. rewrite nth_set. destruct (Nat.eqb_spec i j) as [->|]; [|eauto]. rewrite H. eexists. split; [reflexivity|]. cbn [at_]. destruct s; try discriminate; cbn; congruence.
  - destruct (nth_error (insts w) j); [|discriminate]. injection E as <-. eauto.
  - destruct (nth_error (heap w) c); [|discriminate]. injection E as <-. eauto.
  - destruct (nth_error (insts w) j) as [y|] eqn:Ej; [|discriminate]. injection E as <-. cbn [insts]. rewrite nth_set. destruct (Nat.eqb_spec i j) as [->|]; [|eauto]. rewrite H. eexists. split; [reflexivity|]. cbn [at_]. congruence.
Qed.
Lemma keeps_fold h : forall w, Forall (fun o => hands_sample o = false) h -> keeps w (fold_left perform h w).
Proof.
  induction h as [|o h IH]; intros w F; [intros i x H; eauto|]. inversion F as [|? ? F1 F2]; subst. intros i x H. destruct (keeps_step w o F1 i x H) as (x' & H' & E'). destruct (IH (perform w o) F2 i x' H') as (x2 & H2 & E2). exists x2. split; [exact H2|congruence].
Qed.
(** The instrument a successful constructor makes. *)
Definition creates (h : list op) (a : args) (c : option nat) (i : nat) : Prop := (exists w, step (run h) (Create a c) = Ok w) /\ i = List.length (insts (run h)).
Lemma created_sample h a c i : creates h a (Some c) i -> exists x, nth_error (insts (perform (run h) (Create a (Some c)))) i = Some x /\ at_ x SSample = c.
Proof.
  intros [[w E] ->]. unfold perform. rewrite E. cbn [step] in E. destruct (made_mono a) as [m|]; [|discriminate]. destruct (made_ana a) as [an|]; [|discriminate]. cbn [bind] in E. destruct (nth_error (heap (run h)) c) as [o|]; [|discriminate]. destruct (get "_u" o); [|discriminate]. destruct (get "_v" o); [|discriminate]. cbn [bind] in E. injection E as <-.
  cbn [insts]. eexists. split; [rewrite nth_error_app2, Nat.sub_diag by lia; reflexivity|]. reflexivity.
Qed.
Theorem C90_one_sample_one_orientation : forall h1 a1 h2 a2 h3 c i j k,
  creates h1 a1 (Some c) i -> creates (h1 ++ Create a1 (Some c) :: h2) a2 (Some c) j -> Forall (fun o => hands_sample o = false) (h2 ++ h3) ->
  let w := run (h1 ++ Create a1 (Some c) :: h2 ++ Create a2 (Some c) :: h3) in i <> j /\ read w i SSample k = read w j SSample k.
Proof.
  intros h1 a1 h2 a2 h3 c i j k C1 C2 F w. apply Forall_app in F as [F2 F3]. assert (C1' := C1). assert (C2' := C2). apply created_sample in C1 as (x1 & X1 & A1). apply created_sample in C2 as (x2 & X2 & A2).
  rewrite run_app in X2. cbn [fold_left] in X2. set (w1 := perform (run h1) (Create a1 (Some c))) in *. set (w2 := fold_left perform h2 w1) in *. destruct (keeps_fold h2 w1 F2 i x1 X1) as (y1 & Y1 & B1). fold w2 in Y1. set (w3 := perform w2 (Create a2 (Some c))) in *.
  destruct (keeps_step w2 (Create a2 (Some c)) eq_refl i y1 Y1) as (z1 & Z1 & D1). fold w3 in Z1. destruct (keeps_fold h3 w3 F3 i z1 Z1) as (u1 & U1 & G1). destruct (keeps_fold h3 w3 F3 j x2 X2) as (u2 & U2 & G2).
  assert (Ew : w = fold_left perform h3 w3). { unfold w. rewrite run_app. cbn [fold_left]. fold w1. rewrite fold_left_app. cbn [fold_left]. reflexivity. } split.
  - destruct C2' as [_ ->]. rewrite run_app. cbn [fold_left]. fold w1 w2. assert (i < List.length (insts w2)) by (apply nth_error_Some; congruence). lia.
  - rewrite Ew. unfold read. rewrite U1, U2, G1, G2, D1, B1, A1, A2. reflexivity.
Qed.
Print Assumptions C90_one_sample_one_orientation.

(** * Instruments made without a sample are independent of each other *)
Definition own := ((slot -> obj) * obj)%type.
Definition fresh (a : args) (f : own) : Prop :=
  made_mono a = Ok (fst f SMono) /\ made_ana a = Ok (fst f SAna) /\ fst f SSample = default_sample /\ fst f SDetector = dummy "Detector" /\ fst f SMonitor = dummy "Monitor" /\ fst f SGuide = dummy "Guide" /\ snd f = made_plain a.
(** What is done to instrument [j]. *)
Definition own_step (j : nat) (f : own) (o : op) : own :=
  match o with
  | Assign i s k v => if Nat.eqb i j then (fun t => if slot_eqb t s then put k v (fst f t) else fst f t, snd f) else f
  | Plain i k v => if Nat.eqb i j then (fst f, put k v (snd f)) else f
  | _ => f
  end.
Definition private (o : op) : Prop := match o with Component _ | Create _ None | Assign _ _ _ _ | Plain _ _ _ => True | _ => False end.

(** No two slots share a component. *)
Definition apart (w : world) : Prop := forall i j x y s t, nth_error (insts w) i = Some x -> nth_error (insts w) j = Some y -> at_ x s = at_ y t -> i = j /\ s = t.
Lemma apart_step w o : private o -> sane w -> apart w -> apart (perform w o).
Proof.
  intros P S A. unfold perform. destruct (step w o) as [w'|] eqn:E; [|exact A]. destruct o as [o|a c|i s c|i s k v|c k v|i k v]; try contradiction; cbn [step] in E.
  - injection E as <-. exact A.
  - destruct c; [contradiction|]. destruct (made_mono a) as [m|]; [|discriminate]. destruct (made_ana a) as [an|]; [|discriminate]. cbn [bind] in E. injection E as <-. intros i j x y s t Hx Hy Q. cbn [insts] in *.
    apply nth_app_end in Hx as [[Hx Li]|[-> ->]], Hy as [[Hy Lj]|[-> ->]]; cbn [at_] in Q.
    + eapply A; eauto.
    + assert (L := S i x s Hx). destruct t; cbn in Q; lia.
    + assert (L := S j y t Hy). destruct s; cbn in Q; lia.
    + split; [reflexivity|]. destruct s, t; cbn in Q; try reflexivity; lia.
  - destruct (nth_error (insts w) i); [|discriminate]. injection E as <-. exact A.
  - destruct (nth_error (insts w) i) as [z|] eqn:Ei; [|discriminate]. injection E as <-. intros j l x y s t Hx Hy Q. cbn [insts] in *. rewrite nth_set in Hx, Hy.
    assert (R : forall n u, (if Nat.eqb n i then option_map (fun _ => mkInst (at_ z) (put k v (plain z))) (nth_error (insts w) n) else nth_error (insts w) n) = Some u -> exists u', nth_error (insts w) n = Some u' /\ at_ u = at_ u').
    { intros n u H. destruct (Nat.eqb_spec n i) as [->|]; [|eauto]. rewrite Ei in H. injection H as <-. eauto. }
    apply R in Hx as (x' & Hx & Ex). apply R in Hy as (y' & Hy & Ey). eapply A; eauto. congruence.
Qed.
Definition owns (w : world) (j : nat) (f : own) : Prop := exists x, nth_error (insts w) j = Some x /\ (forall s, nth_error (heap w) (at_ x s) = Some (fst f s)) /\ plain x = snd f.
Lemma owns_step w o j f : private o -> sane w -> apart w -> owns w j f -> owns (perform w o) j (own_step j f o).
Proof.
  intros P S A (x & Hx & Hs & Hp). unfold perform. destruct (step w o) as [w'|] eqn:E.
  2:{ destruct o as [o|a c|i s c|i s k v|c k v|i k v]; try contradiction; cbn [step own_step] in *; try (exists x; auto; fail).
      - destruct (Nat.eqb_spec i j) as [->|]; [rewrite Hx in E; discriminate|exists x; auto].
      - destruct (Nat.eqb_spec i j) as [->|]; [rewrite Hx in E; discriminate|exists x; auto]. }
  assert (X : forall h', (forall s, nth_error (heap w ++ h') (at_ x s) = Some (fst f s))) by (intros h' s; rewrite nth_error_app1; [apply Hs|apply (S j x s Hx)]).
  destruct o as [o|a c|i s c|i s k v|c k v|i k v]; try contradiction; cbn [step own_step] in *.
  - injection E as <-. exists x. cbn [insts heap]. auto.
  - destruct c; [contradiction|]. destruct (made_mono a) as [m|]; [|discriminate]. destruct (made_ana a) as [an|]; [|discriminate]. cbn [bind] in E. injection E as <-. exists x. cbn [insts heap]. rewrite <- app_assoc. split; [|auto]. rewrite nth_error_app1; [exact Hx|]. apply nth_error_Some. congruence.
  - destruct (nth_error (insts w) i) as [y|] eqn:Ei; [|discriminate]. injection E as <-. exists x. cbn [insts heap]. destruct (Nat.eqb_spec i j) as [->|N]; cbn [fst snd].
    + split; [exact Hx|]. split; [|exact Hp]. intros t. rewrite Hx in Ei. injection Ei as <-. rewrite nth_write, Hs. destruct (Nat.eqb_spec (at_ x t) (at_ x s)) as [Q|Q].
      * destruct (A j j x x t s Hx Hx Q) as [_ ->]. replace (slot_eqb s s) with true by (symmetry; apply slot_eqb_iff; reflexivity). reflexivity.
      * destruct (slot_eqb t s) eqn:Z; [apply slot_eqb_iff in Z; congruence|reflexivity].
    + split; [exact Hx|]. split; [|exact Hp]. intros t. rewrite nth_write. destruct (Nat.eqb_spec (at_ x t) (at_ y s)) as [Q|Q]; [destruct (A j i x y t s Hx Ei Q); congruence|apply Hs].
  - destruct (nth_error (insts w) i) as [y|] eqn:Ei; [|discriminate]. injection E as <-. cbn [insts heap]. destruct (Nat.eqb_spec i j) as [->|N]; cbn [fst snd].
    + rewrite Hx in Ei. injection Ei as <-. eexists. cbn [insts heap]. rewrite nth_set, Nat.eqb_refl, Hx. split; [reflexivity|]. cbn [at_ plain]. split; [exact Hs|rewrite Hp; reflexivity].
    + exists x. cbn [insts heap]. rewrite nth_set. destruct (Nat.eqb_spec j i); [congruence|]. auto.
Qed.
Lemma owns_fold j h : forall w f, Forall private h -> sane w -> apart w -> owns w j f -> owns (fold_left perform h w) j (fold_left (own_step j) h f).
Proof.
  induction h as [|o h IH]; intros w f F S A O; [exact O|]. inversion F as [|? ? F1 F2]; subst. cbn [fold_left]. apply IH; [exact F2|apply sane_step, S|apply apart_step; assumption|apply owns_step; assumption].
Qed.
Lemma apart_run h : Forall private h -> apart (run h).
Proof.
  intros F. unfold run. assert (G : forall w, sane w -> apart w -> apart (fold_left perform h w)).
  { induction h as [|o h IH]; intros w S A; [exact A|]. inversion F as [|? ? F1 F2]; subst. cbn [fold_left]. apply IH; [exact F2|apply sane_step, S|apply apart_step; assumption]. }
  apply G; [intros [|i] x s H; discriminate|]. intros [|i] j x y s t H; discriminate.
Qed.
(** What such an instrument shows depends on its own constructor and the assignments made to it, whatever is done to others. *)
Theorem C90_independent : forall h1 a h2 j f s k, Forall private h1 -> Forall private h2 -> creates h1 a None j -> fresh a f ->
  let w := run (h1 ++ Create a None :: h2) in let g := fold_left (own_step j) h2 f in
  read w j s k = get k (fst g s) /\ read_plain w j k = get k (snd g).
Proof.
  intros h1 a h2 j f s k F1 F2 C (M1 & M2 & M3 & M4 & M5 & M6 & M7) w g. assert (O : owns w j g).
  { unfold w, g. rewrite run_app. cbn [fold_left]. apply owns_fold; [exact F2|apply sane_step, sane_run|apply apart_step; [exact I|apply sane_run|apply apart_run, F1]|].
    destruct C as [_ ->]. unfold perform. cbn [step]. rewrite M1, M2. cbn [bind]. eexists. cbn [insts heap]. rewrite nth_error_app2, Nat.sub_diag by lia. split; [reflexivity|]. cbn [at_ plain]. split; [|symmetry; exact M7].
    intros [| | | | |]; cbn [five]; rewrite <- app_assoc, nth_error_app2 by lia.
    - rewrite Nat.sub_diag. reflexivity.
    - replace (_ + 1 - _) with 1 by lia. reflexivity.
    - replace (_ + 5 - _) with 5 by lia. cbn. rewrite M3. reflexivity.
    - replace (_ + 2 - _) with 2 by lia. cbn. rewrite M4. reflexivity.
    - replace (_ + 3 - _) with 3 by lia. cbn. rewrite M5. reflexivity.
    - replace (_ + 4 - _) with 4 by lia. cbn. rewrite M6. reflexivity. }
  destruct O as (x & Hx & Hs & Hp). unfold read, read_plain. rewrite Hx, Hs, Hp. split; reflexivity.
Qed.
Print Assumptions C90_independent.

(** * Making an instrument leaves the sample it is given as it is *)
Theorem C90_sample_kept : forall h a c i k, creates h a (Some c) i ->
  read (run (h ++ [Create a (Some c)])) i SSample k = match nth_error (heap (run h)) c with Some o => get k o | None => Err NameError end.
Proof.
  intros h a c i k C. assert (C' := C). apply created_sample in C' as (x & Hx & Ax). rewrite run_app. cbn [fold_left]. unfold read. rewrite Hx, Ax. destruct C as [[w E] _]. unfold perform in *. rewrite E in *. cbn [step] in E.
  destruct (made_mono a) as [m|]; [|discriminate]. destruct (made_ana a) as [an|]; [|discriminate]. cbn [bind] in E. destruct (nth_error (heap (run h)) c) as [o|] eqn:Eo; [|discriminate]. destruct (get "_u" o) as [u|] eqn:Eu; [|discriminate]. destruct (get "_v" o) as [v|] eqn:Ev; [|discriminate]. cbn [bind] in E. injection E as <-.
  cbn [heap]. rewrite !nth_write, Nat.eqb_refl, nth_error_app1, Eo by (apply nth_error_Some; congruence). cbn [option_map]. rewrite !get_put. destruct (String.eqb_spec k "_v") as [->|]; [congruence|]. destruct (String.eqb_spec k "_u") as [->|]; [congruence|reflexivity].
Qed.
Print Assumptions C90_sample_kept.

(** Without both orientation vectors there is no instrument. *)
Theorem C90_sample_without_plane : forall h a c o, (exists m, made_mono a = Ok m) -> (exists m, made_ana a = Ok m) -> nth_error (heap (run h)) c = Some o ->
  ((exists u, get "_u" o = Ok u) /\ (exists v, get "_v" o = Ok v) <-> exists w, step (run h) (Create a (Some c)) = Ok w) /\
  (~ (exists w, step (run h) (Create a (Some c)) = Ok w) -> step (run h) (Create a (Some c)) = Err AttributeError /\ run (h ++ [Create a (Some c)]) = run h).
Proof.
  intros h a c o [m Em] [an Ea] Eo. rewrite run_app. cbn [fold_left]. unfold perform. cbn [step]. rewrite Em, Ea, Eo. cbn [bind]. unfold get. destruct (lookup "_u" o) as [u|]; cbn [bind].
  - destruct (lookup "_v" o) as [v|]; cbn [bind]; split.
    + split; eauto.
    + intros N. exfalso. apply N. eauto.
    + split; [intros [_ [v H]]; discriminate|intros [w H]; discriminate].
    + auto.
  - split; [split; [intros [[v H] _]; discriminate|intros [w H]; discriminate]|auto].
Qed.
Print Assumptions C90_sample_without_plane.

(** * A component handed to an instrument is that object *)
Theorem C90_handed_component : forall h i s c k v, i < List.length (insts (run h)) -> c < List.length (heap (run h)) ->
  read (run (h ++ [Hand i s c; Touch c k v])) i s k = Ok v /\
  (forall j t k', (j, t) <> (i, s) -> read (run (h ++ [Hand i s c])) j t k' = read (run h) j t k').
Proof.
  intros h i s c k v Hi Hc. rewrite !run_app. cbn [fold_left]. set (w := run h) in *. unfold perform. cbn [step]. destruct (nth_error (insts w) i) as [x|] eqn:Ei; [|apply nth_error_None in Ei; lia]. destruct (nth_error (heap w) c) as [o|] eqn:Eo; [|apply nth_error_None in Eo; lia]. cbn [step heap insts]. rewrite Eo. unfold read. cbn [heap insts]. split.
  - rewrite nth_set, Nat.eqb_refl, Ei. cbn [option_map at_]. replace (slot_eqb s s) with true by (symmetry; apply slot_eqb_iff; reflexivity). rewrite nth_write, Nat.eqb_refl, Eo. cbn [option_map]. rewrite get_put, String.eqb_refl. reflexivity.
  - intros j t k' N. rewrite nth_set. destruct (Nat.eqb_spec j i) as [->|]; [|reflexivity]. rewrite Ei. cbn [option_map at_]. destruct (slot_eqb t s) eqn:Z; [apply slot_eqb_iff in Z; congruence|reflexivity].
Qed.
Print Assumptions C90_handed_component.

(** * What a new instrument without a sample shows *)
Lemma get_extra k l : forall o, (forall v, ~ In (k, v) l) -> get k (fold_left (fun o e => put (fst e) (snd e) o) l o) = get k o.
Proof.
  induction l as [|[x y] l IH]; intros o N; [reflexivity|]. cbn [fold_left fst snd]. rewrite IH by (intros v H; apply (N v); right; exact H). rewrite get_put. destruct (String.eqb_spec k x) as [->|]; [exfalso; apply (N y); left; reflexivity|reflexivity].
Qed.
Lemma get_extra_in k v l : forall o, NoDup (map fst l) -> In (k, v) l -> get k (fold_left (fun o e => put (fst e) (snd e) o) l o) = Ok v.
Proof.
  induction l as [|[x y] l IH]; intros o D I; [contradiction|destruct I as [H|H]]; cbn [map fst] in D; inversion D as [|? ? D1 D2]; subst; cbn [fold_left fst snd].
  - injection H as -> ->. rewrite get_extra; [rewrite get_put, String.eqb_refl; reflexivity|]. intros v' H'. apply D1. apply (in_map fst) in H'. exact H'.
  - apply IH; assumption.
Qed.
Theorem C90_new_instrument : forall h a j, creates h a None j -> let w := run (h ++ [Create a None]) in
  (forall k v, NoDup (map fst (a_extra a)) -> In (k, v) (a_extra a) -> read_plain w j k = Ok v) /\
  ((forall k v, In (k, v) (a_extra a) -> k <> "_efixed" /\ k <> "_hcol" /\ k <> "_vcol") ->
     read_plain w j "_efixed" = Ok (a_efixed a) /\ read_plain w j "_hcol" = Ok (a_hcol a) /\ read_plain w j "_vcol" = Ok (a_vcol a)) /\
  read w j SSample "_u" = Ok (Vec [1; 0; 0]%R) /\ read w j SSample "_v" = Ok (Vec [0; 1; 0]%R) /\ read w j SSample "abc" = Ok (Vec [6; 7; 8]%R) /\ read w j SSample "abg" = Ok (Vec [90; 90; 90]%R) /\
  read w j SSample "mosaic" = Err AttributeError /\
  read w j SMono "_tau" = Ok (a_mono a) /\ read w j SMono "mosaic" = Ok (a_mm a) /\ read w j SMono "dir" = Ok (Num (-1)) /\
  read w j SAna "_tau" = Ok (a_ana a) /\ read w j SAna "mosaic" = Ok (a_am a) /\ read w j SAna "dir" = Ok (Num (-1)) /\
  read w j SDetector "name" = Ok (Str "Detector") /\ read w j SMonitor "name" = Ok (Str "Monitor") /\ read w j SGuide "name" = Ok (Str "Guide").
Proof.
  intros h a j [[w1 E] ->] w. unfold w. rewrite run_app. cbn [fold_left]. unfold perform. rewrite E. cbn [step] in E. destruct (made_mono a) as [m|] eqn:Em; [|discriminate]. destruct (made_ana a) as [an|] eqn:Ea; [|discriminate]. cbn [bind] in E. injection E as <-.
  set (n := List.length (heap (run h))). set (H := heap (run h)) in *.
  assert (P : forall k, read_plain (mkWorld ((H ++ [m; an; dummy "Detector"; dummy "Monitor"; dummy "Guide"]) ++ [default_sample]) (insts (run h) ++ [mkInst (five n (n + 5)) (made_plain a)])) (List.length (insts (run h))) k = get k (made_plain a)).
  { intros k. unfold read_plain. cbn [insts]. rewrite nth_error_app2, Nat.sub_diag by lia. reflexivity. }
  assert (R : forall s k, read (mkWorld ((H ++ [m; an; dummy "Detector"; dummy "Monitor"; dummy "Guide"]) ++ [default_sample]) (insts (run h) ++ [mkInst (five n (n + 5)) (made_plain a)])) (List.length (insts (run h))) s k =
     get k match s with SMono => m | SAna => an | SSample => default_sample | SDetector => dummy "Detector" | SMonitor => dummy "Monitor" | SGuide => dummy "Guide" end).
  { intros s k. unfold read. cbn [insts heap]. rewrite nth_error_app2, Nat.sub_diag by lia. cbn [nth_error at_]. unfold n. destruct s; cbn [five]; rewrite <- app_assoc, nth_error_app2 by (fold H; lia); fold H.
    - rewrite Nat.sub_diag. reflexivity.
    - replace (_ + 1 - _) with 1 by lia. reflexivity.
    - replace (_ + 5 - _) with 5 by lia. reflexivity.
    - replace (_ + 2 - _) with 2 by lia. reflexivity.
    - replace (_ + 3 - _) with 3 by lia. reflexivity.
    - replace (_ + 4 - _) with 4 by lia. reflexivity. }
  split; [intros k v D I; rewrite P; apply get_extra_in; assumption|]. split.
  { intros N. rewrite !P. unfold made_plain. rewrite !get_extra by (intros v I; destruct (N _ _ I) as (? & ? & ?); congruence). rewrite !get_put. repeat split. }
  rewrite !R. repeat (split; [reflexivity|]). clear P R.
  assert (Qm : get "_tau" m = Ok (a_mono a) /\ get "mosaic" m = Ok (a_mm a) /\ get "dir" m = Ok (Num (-1))).
  { clear - Em. unfold made_mono, mono_init in Em. destruct (spacing CMonochromator (tau_of (a_mono a))); cbn [bind] in Em; [|discriminate]. injection Em as <-. split; [|split]; reflexivity. }
  assert (Qa : get "_tau" an = Ok (a_ana a) /\ get "mosaic" an = Ok (a_am a) /\ get "dir" an = Ok (Num (-1))).
  { clear - Ea. unfold made_ana, ana_init, mono_init in Ea. destruct (spacing CAnalyzer (tau_of (a_ana a))); cbn [bind] in Ea; [|discriminate]. injection Ea as <-. split; [|split]; reflexivity. }
  destruct Qm as (-> & -> & ->), Qa as (-> & -> & ->). repeat split.
Qed.
Print Assumptions C90_new_instrument.

(** * Cases *)
Definition pg : args := mkArgs (Num 14.7) (Vec [40; 40; 40; 40]%R) (Vec [120; 120; 120; 120]%R) (Num 2) (Num 25) (Num 2) (Num 25) [].
Definition crystal : obj := sample_init 4 4 4 90 90 90 (Vec [1; 0; 0]%R) (Vec [0; 1; 0]%R) (Num 30) NoneV (Num 1) NoneV NoneV NoneV (Str "rectangular") NoneV.
Lemma pg_spacing who : exists d, spacing who (tau_of (Num 2)) = Ok d.
Proof. unfold spacing, get_tau, tau_of. cbn [bind]. destruct (Req_EM_T 2 0) as [E|E]; [lra|]. eexists. reflexivity. Qed.
Lemma pg_mono : exists m, made_mono pg = Ok m.
Proof. unfold made_mono, pg, mono_init. cbn [a_mono]. destruct (pg_spacing CMonochromator) as [d ->]. cbn [bind]. eexists. reflexivity. Qed.
Lemma pg_ana : exists m, made_ana pg = Ok m.
Proof. unfold made_ana, pg, ana_init, mono_init. cbn [a_ana]. destruct (pg_spacing CAnalyzer) as [d ->]. cbn [bind]. eexists. reflexivity. Qed.
Ltac go Em Ea := unfold run, perform; cbn [app fold_left step]; rewrite ?Em, ?Ea; cbn [bind heap insts app List.length nth_error]; rewrite ?Em, ?Ea; cbn -[made_mono made_ana pg]; rewrite ?Em, ?Ea; cbn -[made_mono made_ana pg].
Example C90_created : creates [Component crystal] pg (Some 0) 0.
Proof. destruct pg_mono as [m Em], pg_ana as [an Ea]. split; [eexists|]; go Em Ea; reflexivity. Qed.
Example C90_created_again : creates ([Component crystal] ++ Create pg (Some 0) :: [orient1 0 (Vec [1; 1; 0]%R)]) pg (Some 0) 1.
Proof. destruct pg_mono as [m Em], pg_ana as [an Ea]. split; [eexists|]; go Em Ea; reflexivity. Qed.
Example C90_created_alone : exists f, creates [Component crystal] pg None 0 /\ fresh pg f /\ Forall private [Component crystal].
Proof.
  destruct pg_mono as [m Em], pg_ana as [an Ea]. exists (fun s => match s with SMono => m | SAna => an | SSample => default_sample | SDetector => dummy "Detector" | SMonitor => dummy "Monitor" | SGuide => dummy "Guide" end, made_plain pg).
  split; [split; [eexists|]; go Em Ea; reflexivity|]. split; [repeat split; assumption|]. constructor; [exact I|constructor].
Qed.
Example C90_no_plane : step (run [Component (sample_init 4 4 4 90 90 90 (Vec [1; 0; 0]%R) NoneV NoneV NoneV (Num 1) NoneV NoneV NoneV (Str "rectangular") NoneV)]) (Create pg (Some 0)) = Err AttributeError.
Proof. destruct pg_mono as [m Em], pg_ana as [an Ea]. go Em Ea. reflexivity. Qed.

(** Two instruments for one crystal cannot be set to two orientations. *)
Theorem C90_two_orientations_refuted : exists h i j u u', i <> j /\ u <> u' /\ (exists a b, creates h a (Some 0) i /\ creates (h ++ [Create a (Some 0)]) b (Some 0) j /\
  let h := h ++ [Create a (Some 0); Create b (Some 0)] in
  read (run (h ++ [orient1 i u])) i SSample "_u" = Ok u /\ read (run (h ++ [orient1 i u; orient1 j u'])) i SSample "_u" = Ok u').
Proof.
  destruct pg_mono as [m Em], pg_ana as [an Ea].
  exists [Component crystal], 0, 1, (Vec [1; 1; 0]%R), (Vec [0; 0; 1]%R).
  split; [discriminate|]. split; [intros H; injection H; lra|]. exists pg, pg. split; [exact C90_created|]. split; [split; [eexists|]; go Em Ea; reflexivity|]. split; go Em Ea; reflexivity.
Qed.
Print Assumptions C90_two_orientations_refuted.
(** The hypotheses of [C90_assignment] and [C90_handed_component]: two instruments, and a crystal of which one has been handed. *)
Example C90_handed_case : let h := [Component crystal; Create pg None; Create pg None] in 1 < List.length (insts (run h)) /\ 0 < List.length (heap (run h)) /\
  ~ same_component (run h) 0 SSample 1 SSample /\ same_component (run (h ++ [Hand 0 SSample 0; Hand 1 SSample 0])) 0 SSample 1 SSample.
Proof.
  destruct pg_mono as [m Em], pg_ana as [an Ea]. unfold same_component. go Em Ea. split; [lia|]. split; [lia|]. split; [intros (x & y & Hx & Hy & H); injection Hx as <-; injection Hy as <-; discriminate H|]. eexists _, _. split; [reflexivity|]. split; reflexivity.
Qed.

(** C94: the window of the resolution calculator. *)
From Coq Require Import String Ascii List ZArith Reals Arith Bool Lia Lra.
From Verif Require Import Base EnergyModel GuiModel.
From Verif Require ToolsModel.
Import ListNotations.
Local Open Scope string_scope.
Local Open Scope list_scope.

(** * What the fields mean *)
(** The number in a field; the numbers in a field, separated by commas. *)
Definition says (w : world) (t : string) (x : R) : Prop := num w t = Some x.
Fixpoint join (l : list string) : string := match l with [] => "" | [s] => s | s :: l => (s ++ "," ++ join l)%string end.
Definition no_comma (s : string) : Prop := forall s1 s2, s <> (s1 ++ "," ++ s2)%string.
Definition lists (w : world) (t : string) (l : list R) : Prop := exists p, p <> [] /\ Forall no_comma p /\ t = join p /\ Forall2 (says w) p l.
Lemma no_comma_cons c s : no_comma (String c s) <-> c <> ","%char /\ no_comma s.
Proof.
  split.
  - intros H. split; [intros ->; apply (H "" s); reflexivity|]. intros s1 s2 ->. apply (H (String c s1) s2). reflexivity.
  - intros [N H] [|d s1] s2 E; injection E; intros; subst; [contradiction|]. apply (H s1 s2). reflexivity.
Qed.
Lemma no_comma_nil : no_comma "". Proof. intros [|d s1] s2 E; discriminate E. Qed.
Lemma split_spec s : split_comma s <> [] /\ Forall no_comma (split_comma s) /\ s = join (split_comma s).
Proof.
  induction s as [|c s (N & F & E)]; cbn [split_comma]; [split; [discriminate|]; split; [repeat constructor; apply no_comma_nil|reflexivity]|].
  destruct (Ascii.eqb_spec c ",") as [->|Nc].
  - split; [discriminate|]. split; [constructor; [apply no_comma_nil|exact F]|]. destruct (split_comma s) as [|t r] eqn:Es; [contradiction|]. cbn [join]. rewrite E at 1. reflexivity.
  - destruct (split_comma s) as [|t r] eqn:Es; [contradiction|]. inversion F; subst. split; [discriminate|]. split; [constructor; [apply no_comma_cons; split; assumption|assumption]|]. destruct r; cbn [join String.append] in *; reflexivity.
Qed.
Lemma split_no_comma s : no_comma s -> split_comma s = [s].
Proof. induction s as [|c s IH]; intros H; [reflexivity|]. apply no_comma_cons in H as [N H]. cbn [split_comma]. destruct (Ascii.eqb_spec c ","); [contradiction|]. rewrite (IH H). reflexivity. Qed.
Lemma split_first s t : no_comma s -> split_comma (s ++ "," ++ t)%string = s :: split_comma t.
Proof. induction s as [|c s IH]; intros H; cbn; [reflexivity|]. apply no_comma_cons in H as [N H]. destruct (Ascii.eqb_spec c ","); [contradiction|]. cbn in IH. rewrite (IH H). reflexivity. Qed.
Lemma split_join p : p <> [] -> Forall no_comma p -> split_comma (join p) = p.
Proof.
  induction p as [|s p IH]; intros N F; [contradiction|]. inversion F; subst. destruct p as [|t p]; [apply split_no_comma; assumption|].
  change (join (s :: t :: p)) with (s ++ "," ++ join (t :: p))%string. rewrite split_first by assumption. rewrite IH; [reflexivity|discriminate|assumption].
Qed.
Lemma floats_iff w t l : floats w t = Ok l <-> lists w t l.
Proof.
  unfold floats. assert (G : forall p l, map_res (float w) p = Ok l <-> Forall2 (says w) p l).
  { induction p as [|s p IH]; intros m; cbn [map_res]; [split; [intros H; injection H as <-; constructor|intros H; inversion H; reflexivity]|].
    unfold float at 1. unfold says. destruct (num w s) as [x|] eqn:E; cbn [bind]; [|split; [discriminate|intros H; inversion H; congruence]].
    destruct (map_res (float w) p) as [q|e] eqn:Ep; cbn [bind].
    - split; [intros H; injection H as <-; constructor; [exact E|apply IH; reflexivity]|]. intros H. inversion H as [|? y ? r H1 H2]; subst. apply IH in H2. injection H2 as <-. congruence.
    - split; [discriminate|]. intros H. inversion H as [|? y ? r H1 H2]; subst. apply IH in H2. discriminate H2. }
  rewrite G. split.
  - intros F. destruct (split_spec t) as (N & F' & E). exists (split_comma t). auto.
  - intros (p & N & F & -> & F'). rewrite split_join by assumption. exact F'.
Qed.

(** * The fields behind each attribute *)
Inductive kind := KNum | KNums | KNth (n : nat) | KText (l : list (string * R)) | KName | KCrystal.
Definition fields : list (string * (string * kind)) :=
  [("sample.a", ("abc_input", KNth 0)); ("sample.b", ("abc_input", KNth 1)); ("sample.c", ("abc_input", KNth 2));
   ("sample.alpha", ("abg_input", KNth 0)); ("sample.beta", ("abg_input", KNth 1)); ("sample.gamma", ("abg_input", KNth 2));
   ("sample.height", ("sample_height_input", KNum)); ("sample.width", ("sample_width_input", KNum)); ("sample.depth", ("sample_depth_input", KNum));
   ("sample.u", ("sample_u_input", KNums)); ("sample.v", ("sample_v_input", KNums)); ("sample.dir", ("sample_dir_select", KText [("Clockwise", 1%R); ("Counter-Clockwise", (-1)%R)]));
   ("sample.mosaic", ("sample_mosaic_input", KNum)); ("sample.vmosaic", ("sample_vmosaic_input", KNum)); ("sample.shape_type", ("sample_shape_dropdown", KName));
   ("mono.tau", ("mono_select_dropdown", KCrystal)); ("mono.mosaic", ("mono_mosaic_input", KNum)); ("mono.vmosaic", ("mono_vmosaic_input", KNum)); ("mono.dir", ("mono_dir_select", KText [("Clockwise", 1%R); ("Counter-Clockwise", (-1)%R)]));
   ("mono.height", ("mono_height_input", KNum)); ("mono.width", ("mono_width_input", KNum)); ("mono.depth", ("mono_depth_input", KNum));
   ("ana.tau", ("ana_select_dropdown", KCrystal)); ("ana.mosaic", ("ana_mosaic_input", KNum)); ("ana.vmosaic", ("ana_vmosaic_input", KNum)); ("ana.dir", ("ana_dir_select", KText [("Clockwise", 1%R); ("Counter-Clockwise", (-1)%R)]));
   ("ana.height", ("ana_height_input", KNum)); ("ana.width", ("ana_width_input", KNum)); ("ana.depth", ("ana_depth_input", KNum));
   ("infin", ("fixed_kikf_dropdown", KText [("ki", 1%R); ("kf", (-1)%R)])); ("hcol", ("hcols_input", KNums)); ("vcol", ("vcols_input", KNums)); ("arms", ("arms_input", KNums));
   ("guide.height", ("guide_height_input", KNum)); ("guide.width", ("guide_width_input", KNum)); ("detector.height", ("detector_height_input", KNum)); ("detector.width", ("detector_width_input", KNum));
   ("moncor", ("moncor_dropdown", KText [("On", 1%R); ("Off", 0%R)])); ("method", ("method_dropdown", KText [("Cooper-Nathans", 0%R); ("Popovici", 1%R)]))].
Definition means (w : world) (t : string) (k : kind) (v : gval) : Prop :=
  match k with
  | KNum => exists x, says w t x /\ v = GNum x
  | KNums => exists l, lists w t l /\ v = GNums l
  | KNth n => exists x y z, lists w t [x; y; z] /\ v = GNum (nth n [x; y; z] 0%R)
  | KText l => exists x, In (t, x) l /\ v = GNum x
  | KName => v = GStr (ToolsModel.lower t)
  | KCrystal => exists x, ToolsModel.get_tau ToolsModel.COtherSelf (ToolsModel.TName t) = Ok (Some x) /\ v = GNum x
  end.

(** * All statements *)
Definition names (t : task) : list string := match t with One a _ | Many a _ | Choice a _ _ | Energy a _ | Lower a _ | Crystal a _ | Unless a _ _ => [a] | Three a b c _ => [a; b; c] end.
Lemma effect_names w e f t n : effect w e f t = Ok n -> forall a, In a (map fst n) -> In a (names t).
Proof.
  destruct t; cbn [effect names]; intros E aa I.
  - destruct (float w (f widget)); [|discriminate]. injection E as <-. exact I.
  - destruct (floats w (f widget)); [|discriminate]. injection E as <-. exact I.
  - destruct (floats w (f widget)) as [[|x [|y [|z [|u l]]]]|]; try discriminate. injection E as <-. exact I.
  - destruct (pick (f widget) l); [|discriminate]. injection E as <-. exact I.
  - destruct (pick (f widget) e); [|discriminate]. injection E as <-. exact I.
  - injection E as <-. exact I.
  - destruct (String.eqb (f widget) "Custom"); [discriminate|]. destruct (ToolsModel.get_tau _ _) as [[x|]|]; cbn [bind] in E; try discriminate. destruct (Req_EM_T x 0); [discriminate|]. injection E as <-. exact I.
  - destruct (String.eqb (f test) "None"); [injection E as <-; destruct I|]. destruct (float w (f widget)); [|discriminate]. injection E as <-. exact I.
Qed.
Lemma lookup_app {A} a (l m : list (string * A)) : ToolsModel.lookup a (l ++ m) = match ToolsModel.lookup a l with Some v => Some v | None => ToolsModel.lookup a m end.
Proof. unfold ToolsModel.lookup. induction l as [|[b v] l IH]; [reflexivity|]. cbn [app find fst]. destruct (String.eqb b a); [reflexivity|exact IH]. Qed.
Lemma lookup_not {A} a (l : list (string * A)) : ~ In a (map fst l) -> ToolsModel.lookup a l = None.
Proof. unfold ToolsModel.lookup. induction l as [|[b v] l IH]; intros N; [reflexivity|]. cbn [find fst map] in *. destruct (String.eqb_spec b a) as [->|]; [exfalso; apply N; left; reflexivity|]. apply IH. intros I. apply N. right. exact I. Qed.
Lemma attribute_app a m n : attribute a (m ++ n) = match attribute a n with Some v => Some v | None => attribute a m end.
Proof. unfold attribute. rewrite rev_app_distr. apply lookup_app. Qed.
Lemma attribute_not a m : ~ In a (map fst m) -> attribute a m = None.
Proof. intros N. unfold attribute. apply lookup_not. rewrite map_rev. intros I. apply N. apply in_rev in I. exact I. Qed.
Lemma attribute_in a m v : attribute a m = Some v -> In a (map fst m).
Proof. intros H. destruct (in_dec string_dec a (map fst m)) as [I|N]; [exact I|]. rewrite attribute_not in H by exact N. discriminate H. Qed.
Lemma perform_keep w e f a l : forall m m', perform w e f l m = Ok m' -> (forall t, In t l -> ~ In a (names t)) -> attribute a m' = attribute a m.
Proof.
  induction l as [|t l IH]; intros m m' E N; cbn [perform] in E; [injection E as <-; reflexivity|]. destruct (effect w e f t) as [n|] eqn:Et; [|discriminate]. cbn [bind] in E.
  rewrite (IH _ _ E) by (intros u I; apply N; right; exact I). rewrite attribute_app, (attribute_not a n); [reflexivity|]. intros I. apply (N t); [left; reflexivity|]. apply (effect_names w e f t n Et a I).
Qed.
Lemma perform_split w e f l1 : forall l2 m m', perform w e f (l1 ++ l2) m = Ok m' -> exists k, perform w e f l1 m = Ok k /\ perform w e f l2 k = Ok m'.
Proof. induction l1 as [|t l1 IH]; intros l2 m m' E; [exists m; split; [reflexivity|exact E]|]. cbn [app perform] in *. destruct (effect w e f t) as [n|]; [|discriminate]. cbn [bind] in *. apply IH, E. Qed.
(** An attribute that one statement assigns. *)
Lemma perform_at w e f a l1 t l2 m m' : perform w e f (l1 ++ t :: l2) m = Ok m' -> (forall u, In u l2 -> ~ In a (names u)) -> exists n, effect w e f t = Ok n /\ (forall v, attribute a n = Some v -> attribute a m' = Some v).
Proof.
  intros E N. apply perform_split in E as (k & _ & E). cbn [perform] in E. destruct (effect w e f t) as [n|] eqn:Et; [|discriminate]. cbn [bind] in E. exists n. split; [reflexivity|]. intros v H. rewrite (perform_keep _ _ _ a _ _ _ E N), attribute_app, H. reflexivity.
Qed.
Fixpoint writer (a : string) (l : list task) : option (list task * task * list task) :=
  match l with
  | [] => None
  | t :: l => match writer a l with Some (l1, u, l2) => Some (t :: l1, u, l2) | None => if mem a (names t) then Some ([], t, l) else None end
  end.
Lemma mem_in' k l : mem k l = true <-> In k l.
Proof. unfold mem. rewrite existsb_exists. split; [intros (x & I & E); apply String.eqb_eq in E; subst; exact I|intros I; exists k; split; [exact I|apply String.eqb_refl]]. Qed.
Lemma writer_spec a l : match writer a l with Some (l1, u, l2) => l = l1 ++ u :: l2 /\ In a (names u) /\ (forall t, In t l2 -> ~ In a (names t)) | None => forall t, In t l -> ~ In a (names t) end.
Proof.
  induction l as [|t l IH]; cbn [writer]; [intros t []|]. destruct (writer a l) as [[[l1 u] l2]|].
  - destruct IH as (-> & I & N). split; [reflexivity|]. split; assumption.
  - destruct (mem a (names t)) eqn:E; [split; [reflexivity|]; split; [apply mem_in', E|exact IH]|]. intros u [<-|I]; [intros J; apply mem_in' in J; congruence|apply IH, I].
Qed.

(** * What a picture is of *)
Lemma lookup_In {A} k (l : list (string * A)) x : ToolsModel.lookup k l = Some x -> In (k, x) l.
Proof. unfold ToolsModel.lookup. induction l as [|[b v] l IH]; [discriminate|]. cbn [find fst]. destruct (String.eqb_spec b k) as [->|]; cbn; [intros H; injection H as ->; left; reflexivity|intros H; right; apply IH, H]. Qed.
Definition served (t : task) (a i : string) (k : kind) : bool :=
  match t, k with
  | One b j, KNum => String.eqb a b && String.eqb i j
  | Many b j, KNums => String.eqb a b && String.eqb i j
  | Three b c d j, KNth n => String.eqb a (nth n [b; c; d] "") && Nat.ltb n 3 && String.eqb i j && negb (String.eqb b c) && negb (String.eqb b d) && negb (String.eqb c d)
  | Lower b j, KName => String.eqb a b && String.eqb i j
  | Crystal b j, KCrystal => String.eqb a b && String.eqb i j
  | _, _ => false
  end.
Definition chosen (t : task) (a i : string) (l : list (string * R)) : Prop := t = Choice a i l.
Lemma one_attr a v : attribute a [(a, v)] = Some v.
Proof. unfold attribute, ToolsModel.lookup. cbn. rewrite String.eqb_refl. reflexivity. Qed.
Lemma served_means w e f t a i k n : (served t a i k = true \/ exists l, k = KText l /\ t = Choice a i l) -> effect w e f t = Ok n -> exists v, attribute a n = Some v /\ means w (f i) k v.
Proof.
  intros [S|(l & -> & ->)] E.
  - destruct t, k; try discriminate S; cbn [served] in S; rewrite ?andb_true_iff in S.
    + destruct S as [S1 S2]. apply String.eqb_eq in S1 as ->. apply String.eqb_eq in S2 as ->. cbn [effect] in E. unfold float in E. destruct (num w (f widget)) as [x|] eqn:N; [|discriminate]. injection E as <-. exists (GNum x). split; [apply one_attr|]. exists x. split; [exact N|reflexivity].
    + destruct S as [S1 S2]. apply String.eqb_eq in S1 as ->. apply String.eqb_eq in S2 as ->. cbn [effect] in E. destruct (floats w (f widget)) as [l|] eqn:N; [|discriminate]. injection E as <-. exists (GNums l). split; [apply one_attr|]. exists l. split; [apply floats_iff, N|reflexivity].
    + destruct S as [[[[[S1 S0] S2] S3] S4] S5]. apply String.eqb_eq in S2 as ->. apply negb_true_iff, String.eqb_neq in S3, S4, S5. cbn [effect] in E. destruct (floats w (f widget)) as [[|x [|y [|z [|u l]]]]|] eqn:N; try discriminate. injection E as <-.
      apply floats_iff in N. exists (GNum (nth n0 [x; y; z] 0%R)). split; [|exists x, y, z; split; [exact N|reflexivity]]. apply String.eqb_eq in S1. subst a. apply Nat.ltb_lt in S0. unfold attribute, ToolsModel.lookup. destruct n0 as [|[|[|n0]]]; [| | |lia]; cbn.
      * destruct (String.eqb_spec c a0); [congruence|]. destruct (String.eqb_spec b a0); [congruence|]. rewrite String.eqb_refl. reflexivity.
      * destruct (String.eqb_spec c b); [congruence|]. rewrite String.eqb_refl. reflexivity.
      * rewrite String.eqb_refl. reflexivity.
    + destruct S as [S1 S2]. apply String.eqb_eq in S1 as ->. apply String.eqb_eq in S2 as ->. cbn [effect] in E. injection E as <-. eexists. split; [apply one_attr|reflexivity].
    + destruct S as [S1 S2]. apply String.eqb_eq in S1 as ->. apply String.eqb_eq in S2 as ->. cbn [effect] in E. destruct (String.eqb (f widget) "Custom"); [discriminate|]. destruct (ToolsModel.get_tau _ _) as [[x|]|] eqn:N; cbn [bind] in E; try discriminate. destruct (Req_EM_T x 0); [discriminate|]. injection E as <-. exists (GNum x). split; [apply one_attr|]. exists x. split; [exact N|reflexivity].
  - cbn [effect] in E. unfold pick in E. destruct (ToolsModel.lookup (f i) l) as [x|] eqn:N; [|discriminate]. injection E as <-. exists (GNum x). split; [apply one_attr|]. exists x. split; [apply lookup_In, N|reflexivity].
Qed.
Definition place (a : string) : nat := match writer a tasks with Some (l1, _, _) => List.length l1 | None => 0 end.
Lemma nth_parts {A} (l : list A) : forall n t, nth_error l n = Some t -> l = firstn n l ++ t :: skipn (S n) l.
Proof. induction l as [|x l IH]; intros [|n] t E; try discriminate E; cbn in *; [injection E as ->; reflexivity|]. f_equal. apply IH, E. Qed.
Definition last_at (a : string) : bool := forallb (fun u => negb (mem a (names u))) (skipn (S (place a)) tasks).
Lemma last_spec a t : nth_error tasks (place a) = Some t -> last_at a = true -> exists l1 l2, tasks = l1 ++ t :: l2 /\ (forall u, In u l2 -> ~ In a (names u)).
Proof.
  intros E L. apply nth_parts in E. exists (firstn (place a) tasks), (skipn (S (place a)) tasks). split; [exact E|]. intros u I J. unfold last_at in L. rewrite forallb_forall in L. specialize (L u I). apply mem_in' in J. rewrite J in L. discriminate L.
Qed.
Definition ok_field (x : string * (string * kind)) : Prop := exists t, nth_error tasks (place (fst x)) = Some t /\ last_at (fst x) = true /\ (served t (fst x) (fst (snd x)) (snd (snd x)) = true \/ exists l, snd (snd x) = KText l /\ t = Choice (fst x) (fst (snd x)) l).
Lemma fields_ok : Forall ok_field fields.
Proof. unfold fields. repeat (constructor; [eexists; split; [reflexivity|]; split; [reflexivity|]; first [left; reflexivity|right; eexists; split; reflexivity]|]). constructor. Qed.

Lemma field_in w e f a i k m : perform w e f tasks [] = Ok m -> In (a, (i, k)) fields -> exists v, attribute a m = Some v /\ means w (f i) k v.
Proof.
  intros E I. assert (F := fields_ok). rewrite Forall_forall in F. destruct (F _ I) as (t & Et & L & S). cbn [fst snd] in *. destruct (last_spec a t Et L) as (l1 & l2 & Ep & N).
  rewrite Ep in E. destruct (perform_at w e f a l1 t l2 [] m E N) as (n & En & H). destruct (served_means w e f t a i k n S En) as (v & Av & Mv). exists v. split; [apply H, Av|exact Mv].
Qed.
(** [pictures s m q p]: the window as it stands gives the picture [p], which is that of the instrument [m] at the point [q]. *)
Definition pictures {w} (s : window w) (m : attrs) (q : list R) (p : picture w) : Prop := loaded w s = Ok (m, q, p).
Lemma pictures_inv {w} (s : window w) m q p : pictures s m q p -> perform w (table s) (shown s) tasks [] = Ok m /\ floats w (shown s "q_input") = Ok q /\ calculate w m q = Ok p.
Proof.
  unfold pictures, loaded. intros H. destruct (perform w (table s) (shown s) tasks []) as [m'|]; [|discriminate]. cbn [bind] in H. destruct (floats w (shown s "q_input")) as [q'|]; [|discriminate]. cbn [bind] in H. destruct (calculate w m' q') as [p'|] eqn:C; [|discriminate]. cbn [bind] in H. injection H as <- <- <-. auto.
Qed.
Theorem C94_attributes : forall w (s : window w) m q p, pictures s m q p ->
  (forall a i k, In (a, (i, k)) fields -> exists v, attribute a m = Some v /\ means w (shown s i) k v) /\ lists w (shown s "q_input") q /\ calculate w m q = Ok p.
Proof. intros w s m q p H. apply pictures_inv in H as (H1 & H2 & H3). split; [intros a i k I; apply (field_in w (table s) (shown s) a i k m H1 I)|]. split; [apply floats_iff, H2|exact H3]. Qed.
Print Assumptions C94_attributes.

(** * The radii of curvature *)
Definition radius (w : world) (t : string) (m : attrs) (a : string) : Prop := if String.eqb t "None" then attribute a m = None else exists x, says w t x /\ attribute a m = Some (GNum x).
Lemma not_before a l w e f : forall m, perform w e f l [] = Ok m -> (forall t, In t l -> ~ In a (names t)) -> attribute a m = None.
Proof. intros m E N. rewrite (perform_keep w e f a l [] m E N). reflexivity. Qed.
Definition free (a : string) (l : list task) : bool := forallb (fun t => negb (mem a (names t))) l.
Lemma free_spec a l : free a l = true -> forall t, In t l -> ~ In a (names t).
Proof. intros F t I J. unfold free in F. rewrite forallb_forall in F. specialize (F t I). apply mem_in' in J. rewrite J in F. discriminate F. Qed.
Definition before := firstn 36 tasks.
Lemma tasks_end : tasks = before ++ [Unless "mono.rh" "mono_hcurve_input" "mono_hcurve_input"; Unless "mono.rv" "mono_vcurve_input" "mono_vcurve_input";
   Unless "ana.rh" "ana_hcurve_input" "ana_hcurve_input"; Unless "ana.rh" "mono_vcurve_input" "ana_vcurve_input"].
Proof. reflexivity. Qed.
Theorem C94_curvature : forall w (s : window w) m q p, pictures s m q p ->
  radius w (shown s "mono_hcurve_input") m "mono.rh" /\ radius w (shown s "mono_vcurve_input") m "mono.rv" /\
  attribute "ana.rv" m = None /\
  (shown s "mono_vcurve_input" = "None" -> radius w (shown s "ana_hcurve_input") m "ana.rh") /\
  (shown s "mono_vcurve_input" <> "None" -> exists x, says w (shown s "ana_vcurve_input") x /\ attribute "ana.rh" m = Some (GNum x)).
Proof.
  intros w s m q p H. apply pictures_inv in H as (E & _). assert (N : attribute "ana.rv" m = None).
  { apply (not_before "ana.rv" tasks w (table s) (shown s) m E). apply free_spec. reflexivity. }
  rewrite tasks_end in E. apply perform_split in E as (m0 & E0 & E).
  assert (M1 := not_before "mono.rh" before w _ _ m0 E0 ltac:(apply free_spec; reflexivity)). assert (M2 := not_before "mono.rv" before w _ _ m0 E0 ltac:(apply free_spec; reflexivity)). assert (M3 := not_before "ana.rh" before w _ _ m0 E0 ltac:(apply free_spec; reflexivity)).
  clear E0. cbn [perform effect] in E. unfold radius, says. unfold float in E.
  assert (D : forall a n (x : gval), attribute a (n ++ [(a, x)]) = Some x) by (intros; rewrite attribute_app, one_attr; reflexivity).
  assert (K : forall a b n (x : gval), a <> b -> attribute a (n ++ [(b, x)]) = attribute a n) by (intros a b n x Nab; rewrite attribute_app, (attribute_not a [(b, x)]); [reflexivity|cbn; intuition congruence]).
  split; [|split; [|split; [exact N|split; intros Hn]]].
  all: repeat match goal with
    | E : context [if String.eqb ?t "None" then _ else _] |- _ => destruct (String.eqb_spec t "None"); cbn [bind] in E
    | E : context [num ?ww ?t] |- _ => match type of E with _ = Ok _ => destruct (num ww t) eqn:?; cbn [bind] in E; try discriminate E end
    end; try contradiction; injection E as <-; rewrite ?app_nil_r.
  all: try solve [rewrite ?K by discriminate; assumption]; try solve [eexists; split; [reflexivity|]; rewrite ?D; rewrite ?K by discriminate; rewrite ?D; reflexivity].
Qed.
Print Assumptions C94_curvature.

(** * Each attribute depends on its own field *)
Definition reads (t : task) : list string := match t with One _ i | Many _ i | Three _ _ _ i | Choice _ i _ | Energy _ i | Lower _ i | Crystal _ i => [i] | Unless _ u i => [u; i] end.
Lemma effect_reads w e f g t : (forall i, In i (reads t) -> f i = g i) -> effect w e f t = effect w e g t.
Proof. destruct t; cbn [reads effect]; intros H; rewrite ?(H widget) by (cbn; tauto); rewrite ?(H test) by (cbn; tauto); reflexivity. Qed.
Lemma perform_reads w e f g l : forall m, (forall t i, In t l -> In i (reads t) -> f i = g i) -> perform w e f l m = perform w e g l m.
Proof.
  induction l as [|t l IH]; intros m H; [reflexivity|]. cbn [perform]. rewrite (effect_reads w e f g t) by (intros i I; apply (H t i); [left; reflexivity|exact I]).
  destruct (effect w e g t); [|reflexivity]. cbn [bind]. apply IH. intros u i Iu Ii. apply (H u i); [right; exact Iu|exact Ii].
Qed.
Lemma perform_frame w e f g a l : forall m n m' n', perform w e f l m = Ok m' -> perform w e g l n = Ok n' -> attribute a m = attribute a n -> (forall t i, In t l -> In a (names t) -> In i (reads t) -> f i = g i) -> attribute a m' = attribute a n'.
Proof.
  induction l as [|t l IH]; intros m n m' n' E E' A H; cbn [perform] in *; [congruence|].
  destruct (effect w e f t) as [x|] eqn:Ex; [|discriminate]. destruct (effect w e g t) as [y|] eqn:Ey; [|discriminate]. cbn [bind] in *.
  apply (IH _ _ _ _ E E'); [|intros u i Iu; apply (H u i); right; exact Iu]. rewrite !attribute_app, A.
  destruct (in_dec string_dec a (names t)) as [I|N].
  - rewrite (effect_reads w e f g t) in Ex by (intros i Ii; apply (H t i); [left; reflexivity|exact I|exact Ii]). rewrite Ex in Ey. injection Ey as ->. reflexivity.
  - rewrite (attribute_not a x), (attribute_not a y); [reflexivity| |]; intros I; apply N; [apply (effect_names _ _ _ _ _ Ey _ I)|apply (effect_names _ _ _ _ _ Ex _ I)].
Qed.
Definition alone (x : string * (string * kind)) : bool := forallb (fun t => negb (mem (fst x) (names t)) || forallb (String.eqb (fst (snd x))) (reads t)) tasks.
Lemma fields_alone : forallb alone fields = true. Proof. reflexivity. Qed.
Definition others : list string := ["efixed"; "mono.rh"; "mono.rv"; "ana.rh"].
Lemma names_known : forallb (fun t => forallb (fun a => mem a (map fst fields) || mem a others) (names t)) tasks = true. Proof. reflexivity. Qed.
Lemma perform_from w e f l : forall m m' a, perform w e f l m = Ok m' -> In a (map fst m') -> In a (map fst m) \/ exists t, In t l /\ In a (names t).
Proof.
  induction l as [|t l IH]; intros m m' a E I; cbn [perform] in E; [injection E as <-; left; exact I|]. destruct (effect w e f t) as [n|] eqn:En; [|discriminate]. cbn [bind] in E.
  destruct (IH _ _ _ E I) as [J|(u & Iu & Ju)]; [|right; exists u; split; [right; exact Iu|exact Ju]]. rewrite map_app in J. apply in_app_or in J as [J|J]; [left; exact J|]. right. exists t. split; [left; reflexivity|]. apply (effect_names _ _ _ _ _ En _ J).
Qed.
Theorem C94_frame : forall w (s s' : window w) m q p m' q' p', table s = table s' -> pictures s m q p -> pictures s' m' q' p' ->
  (forall a i k, In (a, (i, k)) fields -> shown s i = shown s' i -> attribute a m = attribute a m') /\
  (shown s "energy_dropdown" = shown s' "energy_dropdown" -> attribute "efixed" m = attribute "efixed" m') /\
  (forall a v, attribute a m = Some v -> In a (map fst fields) \/ In a ["efixed"; "mono.rh"; "mono.rv"; "ana.rh"]).
Proof.
  intros w s s' m q p m' q' p' T H H'. apply pictures_inv in H as (H & _). apply pictures_inv in H' as (H' & _). rewrite <- T in H'. split; [|split].
  - intros a i k I S. apply (perform_frame w (table s) (shown s) (shown s') a tasks [] [] m m' H H' eq_refl). intros t j It Ia Ij.
    assert (F := fields_alone). rewrite forallb_forall in F. specialize (F _ I). unfold alone in F. rewrite forallb_forall in F. specialize (F _ It). cbn [fst snd] in F. apply mem_in' in Ia. rewrite Ia in F. cbn in F. rewrite forallb_forall in F. specialize (F _ Ij). apply String.eqb_eq in F. subst j. exact S.
  - intros S. apply (perform_frame w (table s) (shown s) (shown s') "efixed" tasks [] [] m m' H H' eq_refl). intros t j It Ia Ij.
    assert (F : forallb (fun t => negb (mem "efixed" (names t)) || forallb (String.eqb "energy_dropdown") (reads t)) tasks = true) by reflexivity.
    rewrite forallb_forall in F. specialize (F _ It). cbv beta in F. apply mem_in' in Ia. rewrite Ia in F. cbn [negb orb] in F. rewrite forallb_forall in F. specialize (F _ Ij). apply String.eqb_eq in F. subst j. exact S.
  - intros a v A. apply attribute_in in A. destruct (perform_from _ _ _ _ _ _ a H A) as [[]|(t & It & Ia)]. assert (F := names_known). rewrite forallb_forall in F. specialize (F _ It). cbv beta in F. rewrite forallb_forall in F. specialize (F _ Ia). cbv beta in F. apply orb_true_iff in F as [F|F]; apply mem_in' in F; [left|right]; exact F.
Qed.
Print Assumptions C94_frame.

(** * Sessions *)
Lemma load_table w s : table (load w s) = table s /\ shown (load w s) = shown s. Proof. unfold load. destruct (loaded w s); split; reflexivity. Qed.
Lemma enter_table w s ev : table (enter w s ev) = table s. Proof. unfold enter. destruct (mem (fst ev) connected); [rewrite (proj1 (load_table w _))|]; reflexivity. Qed.
Lemma enter_shown w s ev i : shown (enter w s ev) i = if String.eqb i (fst ev) then snd ev else shown s i.
Proof. unfold enter. destruct (mem (fst ev) connected); [destruct (load_table w (mkWindow (fun i => if String.eqb i (fst ev) then snd ev else shown s i) (table s) (drawn s))) as [_ ->]|]; reflexivity. Qed.
Lemma session_table w evs : forall s, table (session w s evs) = table s.
Proof. induction evs as [|ev evs IH]; intros s; [reflexivity|]. cbn. fold (session w (enter w s ev) evs). rewrite IH. apply enter_table. Qed.
(** The energy that goes with a number in one of the units of the list. *)
Definition unit_energy (w : world) (u : string) (x y : R) : Prop :=
  (u = "energy (meV)" /\ y = x) \/
  (u = "wavelength (A)" /\ x <> 0%R /\ y = (c_h (phys w) ^ 2 / (2 * c_m (phys w) * (x / 10 ^ 10) ^ 2) * c_J (phys w))%R) \/
  (u = "wave vector (A-1)" /\ x <> 0%R /\ y = (c_h (phys w) ^ 2 / (2 * c_m (phys w) * ((2 * PI / x) / 10 ^ 10) ^ 2) * c_J (phys w))%R).
Lemma open_inv w f s : open_ w f = Ok s -> exists x e d, says w (f "energy_input") x /\ energies w x = Ok e /\ loaded w (mkWindow f e None) = Ok d /\ s = mkWindow f e (Some d).
Proof.
  unfold open_, float, says. destruct (num w (f "energy_input")) as [x|]; [|discriminate]. cbn [bind]. destruct (energies w x) as [e|] eqn:E; [|discriminate]. cbn [bind]. destruct (loaded w (mkWindow f e None)) as [d|] eqn:D; [|discriminate]. cbn [bind]. intros H. injection H as <-. exists x, e, d. auto.
Qed.
Lemma energies_unit w x e u y : energies w x = Ok e -> ToolsModel.lookup u e = Some y -> unit_energy w u x y.
Proof.
  unfold energies, energy_of. destruct (Req_EM_T x 0) as [|N]; [discriminate|]. cbn [bind]. intros H. injection H as <-. intros L. apply lookup_In in L. unfold unit_energy. destruct L as [L|[L|[L|[]]]]; injection L as <- <-; auto 6.
Qed.
Theorem C94_energy : forall w f s0 evs m q p, open_ w f = Ok s0 -> pictures (session w s0 evs) m q p ->
  exists x y, says w (f "energy_input") x /\ unit_energy w (shown (session w s0 evs) "energy_dropdown") x y /\ attribute "efixed" m = Some (GNum y).
Proof.
  intros w f s0 evs m q p O H. apply pictures_inv in H as (H & _). rewrite session_table in H. destruct (open_inv w f s0 O) as (x & e & d & X & Ee & _ & ->). cbn [table] in H.
  destruct (last_spec "efixed" (Energy "efixed" "energy_dropdown") eq_refl eq_refl) as (l1 & l2 & Ep & N). rewrite Ep in H. destruct (perform_at w _ _ "efixed" l1 _ l2 [] m H N) as (n & En & K). cbn [effect] in En. unfold pick in En.
  destruct (ToolsModel.lookup (shown (session w (mkWindow f e (Some d)) evs) "energy_dropdown") e) as [y|] eqn:L; [|discriminate]. injection En as <-. exists x, y. split; [exact X|]. split; [apply (energies_unit w x e _ y Ee L)|]. apply K, one_attr.
Qed.
Print Assumptions C94_energy.
Theorem C94_unread : forall w s0 evs evs',
  Forall2 (fun a b => fst a = fst b /\ (In (fst a) ["energy_input"; "mono_select_input"; "ana_select_input"] \/ snd a = snd b)) evs evs' ->
  drawn (session w s0 evs) = drawn (session w s0 evs').
Proof.
  intros w s0 evs evs' F.
  assert (G : forall l l', Forall2 (fun a b => fst a = fst b /\ (In (fst a) ["energy_input"; "mono_select_input"; "ana_select_input"] \/ snd a = snd b)) l l' ->
    forall s s' : window w, (forall j, ~ In j ["energy_input"; "mono_select_input"; "ana_select_input"] -> shown s j = shown s' j) -> table s = table s' -> drawn s = drawn s' -> drawn (session w s l) = drawn (session w s' l')).
  { induction 1 as [|ev ev' l l' [E V] _ IH]; intros s s' S T D; [exact D|]. cbn. fold (session w (enter w s ev) l) (session w (enter w s' ev') l').
    assert (S' : forall j, ~ In j ["energy_input"; "mono_select_input"; "ana_select_input"] -> shown (enter w s ev) j = shown (enter w s' ev') j).
    { intros j Nj. rewrite !enter_shown, <- E. destruct (String.eqb_spec j (fst ev)) as [->|]; [destruct V as [V|V]; [contradiction|exact V]|apply S, Nj]. }
    apply IH; [exact S'|rewrite !enter_table; exact T|]. unfold enter. rewrite <- E. destruct (mem (fst ev) connected); [|exact D]. unfold load, loaded. cbn [shown table drawn].
    set (g := fun j => if String.eqb j (fst ev) then snd ev else shown s j). set (g' := fun j => if String.eqb j (fst ev) then snd ev' else shown s' j).
    assert (Sg : forall j, ~ In j ["energy_input"; "mono_select_input"; "ana_select_input"] -> g j = g' j). { intros j Nj. generalize (S' j Nj). rewrite !enter_shown, <- E. intros X. exact X. }
    assert (P : perform w (table s) g tasks [] = perform w (table s) g' tasks []).
    { apply perform_reads. intros t j It Ij. apply Sg. intros B. assert (X : forallb (fun t => forallb (fun j => negb (mem j ["energy_input"; "mono_select_input"; "ana_select_input"])) (reads t)) tasks = true) by reflexivity. rewrite forallb_forall in X. specialize (X t It). rewrite forallb_forall in X. specialize (X j Ij). apply mem_in' in B. rewrite B in X. discriminate X. }
    assert (Q : g "q_input" = g' "q_input") by (apply Sg; cbn; intuition discriminate). rewrite <- T, P. cbv beta delta [g g'] in Q. rewrite Q. destruct (perform w (table s) g' tasks []) as [m|]; [|exact D]. cbn [bind]. destruct (floats w _) as [q|]; [|exact D]. cbn [bind]. destruct (calculate w m q); [reflexivity|exact D]. }
  apply G; auto.
Qed.
Print Assumptions C94_unread.

(** * When nothing is drawn *)
Theorem C94_redrawn : forall w (s : window w) i t,
  (~ In i connected -> drawn (enter w s (i, t)) = drawn s) /\
  (In i connected -> forall m q p, pictures (enter w s (i, t)) m q p -> drawn (enter w s (i, t)) = Some (m, q, p)) /\
  (In i connected -> (forall m q p, ~ pictures (enter w s (i, t)) m q p) -> drawn (enter w s (i, t)) = drawn s).
Proof.
  intros w s i t. unfold enter. cbn [fst snd]. destruct (mem i connected) eqn:M.
  - split; [intros N; apply mem_in' in M; contradiction|]. set (s' := mkWindow _ _ _). assert (L : loaded w (load w s') = loaded w s') by (unfold loaded; destruct (load_table w s') as [-> ->]; reflexivity).
    unfold pictures. rewrite L. split; intros _; [intros m q p P|intros P]; unfold load; [rewrite P; reflexivity|]. destruct (loaded w s') as [[[m q] p]|e] eqn:D; [exfalso; apply (P m q p); reflexivity|reflexivity].
  - split; [intros _; reflexivity|]. split; intros I; apply mem_in' in I; congruence.
Qed.
Print Assumptions C94_redrawn.
Lemma session_shown w i evs : forall s, ~ In i (map fst evs) -> shown (session w s evs) i = shown s i.
Proof. induction evs as [|ev evs IH]; intros s N; [reflexivity|]. cbn. fold (session w (enter w s ev) evs). rewrite IH by (intros I; apply N; right; exact I). rewrite enter_shown. destruct (String.eqb_spec i (fst ev)) as [->|]; [exfalso; apply N; left; reflexivity|reflexivity]. Qed.
Theorem C94_unreadable : forall w (s : window w) evs a i k, In (a, (i, k)) fields -> (forall v, ~ means w (shown s i) k v) -> ~ In i (map fst evs) -> drawn (session w s evs) = drawn s.
Proof.
  intros w s evs a i k F B. revert s B. induction evs as [|[j t] evs IH]; intros s B N; [reflexivity|]. cbn. fold (session w (enter w s (j, t)) evs).
  assert (Nj : i <> j) by (intros ->; apply N; left; reflexivity). assert (E : shown (enter w s (j, t)) i = shown s i) by (rewrite enter_shown; cbn [fst snd]; destruct (String.eqb_spec i j); [contradiction|reflexivity]).
  rewrite IH; [|rewrite E; exact B|intros I; apply N; right; exact I]. destruct (C94_redrawn w s j t) as (R1 & _ & R3). destruct (in_dec string_dec j connected) as [I|I]; [|apply R1, I]. apply R3; [exact I|]. intros m q p P.
  destruct (C94_attributes w _ m q p P) as (A & _). destruct (A a i k F) as (v & _ & M). rewrite E in M. apply (B v M).
Qed.
Print Assumptions C94_unreadable.
Theorem C94_custom : forall w (s : window w) evs i, i = "mono_select_dropdown" \/ i = "ana_select_dropdown" -> shown s i = "Custom" -> ~ In i (map fst evs) -> drawn (session w s evs) = drawn s.
Proof.
  intros w s evs i [->| ->] E N; [apply (C94_unreadable w s evs "mono.tau" "mono_select_dropdown" KCrystal)|apply (C94_unreadable w s evs "ana.tau" "ana_select_dropdown" KCrystal)];
    try assumption; try (unfold fields; cbn; tauto); rewrite E; intros v (x & T & _); vm_compute in T; discriminate T.
Qed.
Print Assumptions C94_custom.
Theorem C94_stale : forall w (s : window w) t, drawn (enter w s ("q_input", t)) = drawn s /\ drawn (enter w s ("energy_dropdown", t)) = drawn s /\
  (forall i, In i (map fst (map snd fields)) \/ In i ["energy_input"; "mono_hcurve_input"; "mono_vcurve_input"; "ana_hcurve_input"; "ana_vcurve_input"] -> In i connected).
Proof.
  intros w s t. split; [|split]; try reflexivity. intros i I. assert (F : forallb (fun i => mem i connected) (map fst (map snd fields) ++ ["energy_input"; "mono_hcurve_input"; "mono_vcurve_input"; "ana_hcurve_input"; "ana_vcurve_input"]) = true) by reflexivity.
  rewrite forallb_forall in F. apply mem_in', F, in_or_app, I.
Qed.
Print Assumptions C94_stale.

(** * The window as it opens *)
Definition default : form := fun i => match ToolsModel.lookup i
  [("energy_input", "14.7"); ("energy_dropdown", "energy (meV)"); ("fixed_kikf_dropdown", "ki"); ("mono_select_dropdown", "PG(002)"); ("ana_select_dropdown", "PG(002)");
   ("mono_mosaic_input", "25"); ("mono_vmosaic_input", "25"); ("ana_mosaic_input", "25"); ("ana_vmosaic_input", "25"); ("sample_mosaic_input", "60"); ("sample_vmosaic_input", "60");
   ("mono_hcurve_input", "None"); ("mono_vcurve_input", "None"); ("ana_hcurve_input", "None"); ("ana_vcurve_input", "None"); ("abc_input", "4, 4, 4"); ("abg_input", "90, 90, 90");
   ("sample_u_input", "1, 0, 0"); ("sample_v_input", "0, 1, 0"); ("sample_shape_dropdown", "Rectangular"); ("sample_dir_select", "Counter-Clockwise"); ("mono_dir_select", "Clockwise"); ("ana_dir_select", "Clockwise");
   ("guide_height_input", "10"); ("guide_width_input", "10"); ("detector_height_input", "10"); ("detector_width_input", "10"); ("hcols_input", "120, 60, 60, 120"); ("vcols_input", "120, 120, 120, 120"); ("arms_input", "300, 300, 300, 300");
   ("q_input", "1, 0, 0, 0"); ("method_dropdown", "Cooper-Nathans"); ("moncor_dropdown", "On"); ("mono_select_input", ""); ("ana_select_input", "")] with Some t => t | None => "1" end.
Definition some_num (t : string) : option R :=
  ToolsModel.lookup t [("14.7", 147 / 10); ("1", 1); (" 1", 1); ("0", 0); (" 0", 0); ("4", 4); (" 4", 4); ("10", 10); ("25", 25); ("30", 30); ("60", 60); (" 60", 60); ("90", 90); (" 90", 90); ("120", 120); (" 120", 120); ("300", 300); (" 300", 300)]%R.
Definition some_world : world := mkWorld some_num (mkC 1 1 1 1 1) attrs (fun m _ => Ok m).
Lemma tau_ok A (x y : A) : (if Req_EM_T (187325 / 100000) 0 then x else y) = y.
Proof. destruct (Req_EM_T (187325 / 100000) 0); [exfalso; lra|reflexivity]. Qed.
Lemma en_ok A (x y : A) : (if Req_EM_T (147 / 10) 0 then x else y) = y.
Proof. destruct (Req_EM_T (147 / 10) 0); [exfalso; lra|reflexivity]. Qed.
Lemma run_ok w e f l : forall ns m, Forall2 (fun t n => effect w e f t = Ok n) l ns -> perform w e f l m = Ok (m ++ concat ns).
Proof. induction l as [|t l IH]; intros ns m F; inversion F as [|? n ? ns' E F']; subst; cbn [perform concat]; [rewrite app_nil_r; reflexivity|]. rewrite E. cbn [bind]. rewrite (IH ns' _ F'), app_assoc. reflexivity. Qed.
Lemma pg_ok w e f a i : f i = "PG(002)" -> effect w e f (Crystal a i) = Ok [(a, GNum (187325 / 100000)%R)].
Proof. intros E. cbn [effect]. rewrite E. change (ToolsModel.get_tau ToolsModel.COtherSelf (ToolsModel.TName "PG(002)")) with (Ok (Some (187325 / 100000)%R)). cbn [bind String.eqb]. rewrite tau_ok. reflexivity. Qed.
Lemma some_loaded e f d ns q : Forall2 (fun t n => effect some_world e f t = Ok n) tasks ns -> floats some_world (f "q_input") = Ok q -> loaded some_world (mkWindow f e d) = Ok (concat ns, q, concat ns).
Proof. intros F Q. unfold loaded. cbn [shown table]. rewrite (run_ok _ _ _ _ ns [] F). cbn [bind app]. rewrite Q. reflexivity. Qed.
Ltac go := unfold tasks; repeat first [apply Forall2_nil|apply Forall2_cons; [first [apply pg_ok; reflexivity|reflexivity]|]].
Definition some_table a b : list (string * R) := [("energy (meV)", (147 / 10)%R); ("wavelength (A)", a); ("wave vector (A-1)", b)].
Lemma default_runs a b : exists ns, Forall2 (fun t n => effect some_world (some_table a b) default t = Ok n) tasks ns /\ attribute "efixed" (concat ns) = Some (GNum (147 / 10)%R) /\ attribute "sample.dir" (concat ns) = Some (GNum (-1)%R) /\ attribute "hcol" (concat ns) = Some (GNums [120; 60; 60; 120]%R) /\ attribute "sample.shape_type" (concat ns) = Some (GStr "rectangular").
Proof. eexists. split; [go|]. repeat split; reflexivity. Qed.
Example C94_opens : exists s m q, open_ some_world default = Ok s /\ drawn s = Some (m, q, m) /\ q = [1; 0; 0; 0]%R /\ attribute "efixed" m = Some (GNum (147 / 10)%R) /\ attribute "sample.dir" m = Some (GNum (-1)%R) /\ attribute "hcol" m = Some (GNums [120; 60; 60; 120]%R) /\ attribute "sample.shape_type" m = Some (GStr "rectangular").
Proof.
  unfold open_, energies, energy_of. replace (float some_world (default "energy_input")) with (Ok (147 / 10)%R) by reflexivity. cbn [bind]. rewrite !en_ok. cbn [bind].
  set (a := (_ * c_J _)%R). set (b := (_ * c_J _)%R). clearbody a b. destruct (default_runs a b) as (ns & F & H). rewrite (some_loaded _ _ _ ns [1; 0; 0; 0]%R F) by reflexivity. cbn [bind].
  do 3 eexists. split; [reflexivity|]. split; [reflexivity|]. split; [reflexivity|exact H].
Qed.

Definition put (i t : string) : form := fun j => if String.eqb j i then t else default j.
Lemma put_runs a b : exists ns, Forall2 (fun t n => effect some_world (some_table a b) default t = Ok n) tasks ns /\ Forall2 (fun t n => effect some_world (some_table a b) (put "ana_vcurve_input" "30") t = Ok n) tasks ns /\ Forall2 (fun t n => effect some_world (some_table a b) (put "energy_input" "30") t = Ok n) tasks ns /\ Forall2 (fun t n => effect some_world (some_table a b) (put "q_input" "0, 1, 0, 0") t = Ok n) tasks ns.
Proof. eexists. split; [go|]. split; [go|]. split; go. Qed.
(** The analyzer's vertical radius alone, the monochromator's alone, the energy and the point change nothing, although their texts are numbers. *)
Theorem C94_no_effect_refuted : exists w (s : window w) d, open_ w default = Ok s /\ drawn s = Some d /\ says w "30" 30%R /\ lists w "0, 1, 0, 0" [0; 1; 0; 0]%R /\
  Forall (fun ev => drawn (enter w s ev) = Some d) [("ana_vcurve_input", "30"); ("mono_vcurve_input", "30"); ("energy_input", "30"); ("q_input", "0, 1, 0, 0")].
Proof.
  exists some_world. unfold open_, energies, energy_of. replace (float some_world (default "energy_input")) with (Ok (147 / 10)%R) by reflexivity. cbn [bind]. rewrite !en_ok. cbn [bind].
  set (a := (_ * c_J _)%R). set (b := (_ * c_J _)%R). clearbody a b. destruct (put_runs a b) as (ns & F & F1 & F2 & _). rewrite (some_loaded _ _ _ ns [1; 0; 0; 0]%R F) by reflexivity. cbn [bind].
  do 2 eexists. split; [reflexivity|]. split; [reflexivity|]. split; [reflexivity|]. split; [apply floats_iff; reflexivity|]. apply Forall_cons; [|apply Forall_cons; [|apply Forall_cons; [|apply Forall_cons; [|apply Forall_nil]]]].
  - unfold enter. replace (mem _ connected) with true by reflexivity. unfold load. cbn [fst snd shown table drawn]. change (fun i : string => _) with (put "ana_vcurve_input" "30"). rewrite (some_loaded _ _ _ ns [1; 0; 0; 0]%R F1) by reflexivity. reflexivity.
  - match goal with |- drawn (enter ?w ?s ?e) = _ => destruct (C94_redrawn w s (fst e) (snd e)) as (_ & _ & R) end. cbn [fst snd] in R. apply R; [apply mem_in'; reflexivity|]. intros m q p P.
    destruct (C94_curvature _ _ m q p P) as (_ & _ & _ & _ & V). destruct V as (x & V & _); [rewrite enter_shown; discriminate|]. rewrite enter_shown in V. vm_compute in V. discriminate V.
  - unfold enter. replace (mem _ connected) with true by reflexivity. unfold load. cbn [fst snd shown table drawn]. change (fun i : string => _) with (put "energy_input" "30"). rewrite (some_loaded _ _ _ ns [1; 0; 0; 0]%R F2) by reflexivity. reflexivity.
  - reflexivity.
Qed.
Print Assumptions C94_no_effect_refuted.
(** A point entered is used once something else is. *)
Example C94_point_later : exists s m q, open_ some_world default = Ok s /\ pictures (session some_world s [("q_input", "0, 1, 0, 0"); ("mono_mosaic_input", "25")]) m q m /\ q = [0; 1; 0; 0]%R.
Proof.
  unfold open_, energies, energy_of. replace (float some_world (default "energy_input")) with (Ok (147 / 10)%R) by reflexivity. cbn [bind]. rewrite !en_ok. cbn [bind].
  set (a := (_ * c_J _)%R). set (b := (_ * c_J _)%R). clearbody a b. destruct (put_runs a b) as (ns & F & _ & _ & F3). rewrite (some_loaded _ _ _ ns [1; 0; 0; 0]%R F) by reflexivity. cbn [bind].
  do 3 eexists. split; [reflexivity|]. set (s := mkWindow _ _ _). split; [|reflexivity]. unfold pictures, loaded. rewrite session_table. change (table s) with (some_table a b).
  rewrite (perform_reads _ _ _ (put "q_input" "0, 1, 0, 0")).
  - rewrite (run_ok _ _ _ _ ns [] F3). cbn [bind session fold_left]. rewrite !enter_shown. reflexivity.
  - intros t i _ _. cbn [session fold_left]. rewrite !enter_shown. cbn [fst snd]. unfold put. destruct (String.eqb_spec i "mono_mosaic_input") as [->|]; reflexivity.
Qed.
Example C94_custom_case : exists s, open_ some_world default = Ok s /\ shown (enter some_world s ("ana_select_dropdown", "Custom")) "ana_select_dropdown" = "Custom" /\ ~ In "ana_select_dropdown" (map fst [("ana_select_input", "25"); ("sample_mosaic_input", "30")]).
Proof. destruct C94_opens as (s & _ & _ & O & _). exists s. split; [exact O|]. split; [rewrite enter_shown; reflexivity|cbn; intuition discriminate]. Qed.

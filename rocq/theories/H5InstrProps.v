(** C72: instruments as hdf5 files. *)
From Coq Require Import String Ascii List Arith Bool Lia.
From Verif Require Import Base TextModel TextProof InstrFileModel H5InstrModel.
Import ListNotations.
Local Open Scope string_scope.

(** Lists come back as arrays. *)
Definition as_array (v : value) : value := match v with Lst l => Arr l | _ => v end.
Definition none : value := Other "None".
(** The attributes of a group that are there. *)
Definition present (I : inst) (g : string) (ks : list string) : list (string * value) := flat_map (fun k => match val I g k with Some v => [(k, as_array v)] | None => [] end) ks.

Lemma stored_ok v : v <> none -> stored v = Ok (as_array v).
Proof. intros H. destruct v; try reflexivity. cbn [stored]. destruct (String.eqb_spec s "None") as [->|]; [exfalso; apply H; reflexivity|reflexivity]. Qed.
Lemma stored_none : stored none = Err TypeError. Proof. reflexivity. Qed.
Lemma value_eq_dec (v w : value) : {v = w} + {v <> w}.
Proof. decide equality; try apply string_dec; apply list_eq_dec; apply string_dec. Defined.
Lemma attributes_ok I g ks : (forall k, In k ks -> val I g k <> Some none) -> attributes I g ks = (present I g ks, Ok tt).
Proof.
  induction ks as [|k ks IH]; intros H; [reflexivity|]. cbn [attributes present flat_map]. specialize (IH (fun k' K => H k' (or_intror K))). destruct (val I g k) as [v|] eqn:V; [|exact IH].
  rewrite stored_ok; [|intros ->; exact (H k (or_introl eq_refl) V)]. rewrite IH. reflexivity.
Qed.
Lemma attributes_bad I g ks k : In k ks -> val I g k = Some none -> exists l, attributes I g ks = (l, Err TypeError).
Proof.
  induction ks as [|k' ks IH]; intros K V; [destruct K|]. cbn [attributes]. destruct K as [->|K].
  - rewrite V, stored_none. eexists. reflexivity.
  - destruct (IH K V) as (l & E). destruct (val I g k') as [v|]; [|eauto]. destruct (value_eq_dec v none) as [->|N]; [rewrite stored_none; eexists; reflexivity|]. rewrite stored_ok by exact N. rewrite E. eexists. reflexivity.
Qed.
Lemma attributes_either I g ks : attributes I g ks = (present I g ks, Ok tt) \/ exists l, attributes I g ks = (l, Err TypeError).
Proof.
  assert (D : {exists k, In k ks /\ val I g k = Some none} + {forall k, In k ks -> val I g k <> Some none}).
  { induction ks as [|k ks [IH|IH]]; [right; intros k []|left; destruct IH as (k' & A & B); exists k'; split; [right; exact A|exact B]|].
    destruct (val I g k) as [v|] eqn:V; [destruct (value_eq_dec v none) as [->|N]|].
    - left. exists k. split; [left; reflexivity|exact V].
    - right. intros k' [<-|K]; [rewrite V; congruence|apply IH; exact K].
    - right. intros k' [<-|K]; [rewrite V; discriminate|apply IH; exact K]. }
  destruct D as [(k & K & V)|D]; [right; apply (attributes_bad I g ks k K V)|left; apply attributes_ok; exact D].
Qed.

(** Groups that are written when all goes well. *)
Definition shown (g : string) (l : list (string * value)) : bool := match l with [] => String.eqb g "" | _ => true end.
Definition written (I : inst) (todo : list (string * list string)) : groups := flat_map (fun p => let l := present I (fst p) (snd p) in if shown (fst p) l then [(fst p, l)] else []) todo.
Lemma fill_ok I todo : (forall g ks k, In (g, ks) todo -> In k ks -> val I g k <> Some none) -> fill I todo = (written I todo, Ok tt).
Proof.
  induction todo as [|[g ks] todo IH]; intros H; [reflexivity|]. cbn [fill written flat_map fst snd]. rewrite attributes_ok by (intros k K; apply (H g ks k (or_introl eq_refl) K)).
  rewrite IH by (intros g' ks' k G K; apply (H g' ks' k (or_intror G) K)). cbn zeta. destruct (present I g ks) as [|p l]; cbn [shown]; [destruct (String.eqb g ""); reflexivity|reflexivity].
Qed.
Lemma fill_bad I todo g ks k : In (g, ks) todo -> In k ks -> val I g k = Some none -> exists gs, fill I todo = (gs, Err TypeError) /\ forall g' ks', In (g', ks') todo -> (exists l, In (g', l) gs) \/ ~ (exists k' v, In k' ks' /\ val I g' k' = Some v).
Proof.
  induction todo as [|[g0 ks0] todo IH]; intros G K V; [destruct G|]. cbn [fill]. destruct (attributes_either I g0 ks0) as [E|(l & E)]; rewrite E.
  - destruct G as [G|G]; [injection G as -> ->; destruct (attributes_bad I g ks k K V) as (l & E'); congruence|]. destruct (IH G K V) as (gs & F & P). rewrite F. eexists. split; [reflexivity|].
    intros g' ks' [Q|Q].
    + injection Q as <- <-. destruct (present I g0 ks0) as [|p l] eqn:Pr; [|left; eexists; left; reflexivity].
      destruct (String.eqb g0 ""); [left; eexists; left; reflexivity|]. right. intros (k' & v & K' & V'). assert (X : In (k', as_array v) (present I g0 ks0)) by (apply in_flat_map; exists k'; split; [exact K'|rewrite V'; left; reflexivity]). rewrite Pr in X. destruct X.
    + destruct (P g' ks' Q) as [(l & L)|N]; [left|right; exact N]. exists l. destruct (present I g0 ks0); [destruct (String.eqb g0 "")|]; (try (right; exact L)); exact L.
  - eexists. split; [reflexivity|]. intros g' ks' [Q|Q]; left; [injection Q as <- <-; eexists; left; reflexivity|]. exists []. right. apply in_map_iff. exists (g', ks'). auto.
Qed.

(** ** Loading *)
Definition lookup (k : string) (l : list (string * value)) : option value := match find (fun p => String.eqb (fst p) k) (List.rev l) with Some (_, v) => Some v | None => None end.
Definition taken (g k : string) (v : value) : value := if String.eqb g "" then undecoded v else attr_set g k v.
Lemma fold_put (h : string -> value -> value) l I g g' k : val (fold_left (fun I p => put I g (fst p) (h (fst p) (snd p))) l I) g' k = (if String.eqb g' g then match lookup k l with Some v => Some (h k v) | None => val I g' k end else val I g' k).
Proof.
  revert I. induction l as [|[k0 v0] l IH]; intros I; [cbn; destruct (String.eqb g' g); reflexivity|]. cbn [fold_left fst snd]. rewrite IH. unfold lookup. cbn [List.rev].
  assert (F : forall (p : string * value -> bool) l x, find p (List.app l [x]) = match find p l with Some y => Some y | None => if p x then Some x else None end) by (intros p l0 x; induction l0 as [|y l0 IHl]; cbn; [reflexivity|destruct (p y); [reflexivity|exact IHl]]).
  rewrite F. cbn [fst]. destruct (String.eqb_spec g' g) as [->|N].
  - destruct (find _ (List.rev l)) as [[k1 v1]|]; [reflexivity|]. cbn [put val]. rewrite String.eqb_refl. cbn [andb]. rewrite (String.eqb_sym k0 k). destruct (String.eqb_spec k k0) as [->|]; reflexivity.
  - cbn [put val]. destruct (String.eqb_spec g' g); [contradiction|reflexivity].
Qed.
Lemma fold_put_sub (h : string -> value -> value) l I g : sub (fold_left (fun I p => put I g (fst p) (h (fst p) (snd p))) l I) = sub I.
Proof. revert I. induction l as [|p l IH]; intros I; [reflexivity|]. cbn [fold_left]. rewrite IH. reflexivity. Qed.
Lemma load_group_ok I g l : sub I g = true \/ g = "" -> exists J, load_group I g l = Ok J /\ sub J = sub I /\ forall g' k, val J g' k = (if String.eqb g' g then match lookup k l with Some v => Some (taken g k v) | None => val I g' k end else val I g' k).
Proof.
  intros H. unfold load_group, taken. destruct (String.eqb_spec g "") as [->|N].
  - eexists. split; [reflexivity|]. split; [apply (fold_put_sub (fun _ v => undecoded v))|]. intros g' k. apply (fold_put (fun _ v => undecoded v)).
  - destruct H as [H|H]; [|contradiction]. rewrite H. eexists. split; [reflexivity|]. split; [apply (fold_put_sub (fun k v => attr_set g k v))|]. intros g' k. apply (fold_put (fun k v => attr_set g k v)).
Qed.
Definition group_of (g : string) (gs : groups) : list (string * value) := match find (fun p => String.eqb (fst p) g) gs with Some (_, l) => l | None => [] end.
Lemma load_groups_ok gs : forall I, NoDup (map fst gs) -> (forall g l, In (g, l) gs -> sub I g = true \/ g = "") ->
  exists J, load_groups I gs = Ok J /\ forall g k, val J g k = match lookup k (group_of g gs) with Some v => Some (taken g k v) | None => val I g k end.
Proof.
  induction gs as [|[g l] gs IH]; intros I N S; [exists I; split; reflexivity|]. cbn [map fst] in N. inversion N as [|? ? N1 N2]; subst. cbn [load_groups].
  destruct (load_group_ok I g l (S g l (or_introl eq_refl))) as (I' & E & SI & V). rewrite E. cbn [bind]. destruct (IH I' N2) as (J & EJ & VJ). { intros g' l' G. rewrite SI. apply (S g' l'). right. exact G. }
  exists J. split; [exact EJ|]. intros g' k. rewrite VJ, V. unfold group_of. cbn [find fst]. rewrite (String.eqb_sym g' g). destruct (String.eqb_spec g g') as [->|G]; [|reflexivity].
  destruct (find (fun p => String.eqb (fst p) g') gs) as [[g2 l2]|] eqn:F; [|reflexivity]. exfalso. apply find_some in F. destruct F as (F1 & F2). apply String.eqb_eq in F2. cbn in F2. subst g2. apply N1. apply in_map_iff. exists (g', l2). auto.
Qed.
Lemma load_groups_missing gs : forall I g l, In (g, l) gs -> sub I g = false -> g <> "" -> load_groups I gs = Err AttributeError.
Proof.
  induction gs as [|[g0 l0] gs IH]; intros I g l G S N; [destruct G|]. cbn [load_groups]. destruct G as [G|G].
  - injection G as -> ->. unfold load_group. destruct (String.eqb_spec g ""); [contradiction|]. rewrite S. reflexivity.
  - destruct (string_dec g0 "") as [->|N0].
    + destruct (load_group_ok I "" l0 (or_intror eq_refl)) as (I' & E & SI & _). rewrite E. cbn [bind]. apply (IH I' g l); [exact G|rewrite SI; exact S|exact N].
    + destruct (sub I g0) eqn:S0.
      * destruct (load_group_ok I g0 l0 (or_introl S0)) as (I' & E & SI & _). rewrite E. cbn [bind]. apply (IH I' g l); [exact G|rewrite SI; exact S|exact N].
      * unfold load_group. destruct (String.eqb_spec g0 ""); [contradiction|]. rewrite S0. reflexivity.
Qed.
(** ** Names *)
Fixpoint distinct (l : list string) : bool := match l with [] => true | x :: r => negb (mem x r) && distinct r end.
Lemma distinct_NoDup l : distinct l = true -> NoDup l.
Proof.
  induction l as [|x l IH]; intros H; constructor; cbn in H; apply andb_prop in H; destruct H as (H1 & H2); [|apply IH; exact H2]. intros I. assert (E : mem x l = true) by (apply existsb_exists; exists x; split; [exact I|apply String.eqb_refl]). rewrite E in H1. discriminate.
Qed.
Lemma saved_distinct : NoDup (map fst saved) /\ forall g ks, In (g, ks) saved -> NoDup ks.
Proof.
  split; [apply distinct_NoDup; vm_compute; reflexivity|]. intros g ks H. apply distinct_NoDup. assert (C : forallb (fun p => distinct (snd p)) saved = true) by (vm_compute; reflexivity). rewrite forallb_forall in C. apply (C _ H).
Qed.
Lemma saved_in g k : In (g, k) saved_names <-> exists ks, In (g, ks) saved /\ In k ks.
Proof.
  unfold saved_names. rewrite in_flat_map. split.
  - intros ([g' ks] & A & B). apply in_map_iff in B. destruct B as (k' & E & B). injection E as -> ->. eauto.
  - intros (ks & A & B). exists (g, ks). split; [exact A|]. apply in_map_iff. exists k. auto.
Qed.
Lemma lookup_present I g ks k : NoDup ks -> lookup k (present I g ks) = if mem k ks then option_map as_array (val I g k) else None.
Proof.
  intros N. unfold lookup.
  assert (U : forall v, In (k, v) (present I g ks) <-> In k ks /\ exists w, val I g k = Some w /\ v = as_array w).
  { intros v. unfold present. rewrite in_flat_map. split.
    - intros (k' & A & B). destruct (val I g k') as [w|] eqn:V; [|destruct B]. destruct B as [B|[]]. injection B as -> <-. split; [exact A|]. exists w. auto.
    - intros (A & w & V & ->). exists k. split; [exact A|]. rewrite V. left. reflexivity. }
  destruct (find _ _) as [[k' v]|] eqn:F.
  - apply find_some in F. destruct F as (F1 & F2). cbn in F2. apply String.eqb_eq in F2. subst k'. apply in_rev in F1. apply U in F1. destruct F1 as (A & w & V & ->).
    assert (M : mem k ks = true) by (apply existsb_exists; exists k; split; [exact A|apply String.eqb_refl]). rewrite M, V. reflexivity.
  - destruct (mem k ks) eqn:M; [|reflexivity]. destruct (val I g k) as [w|] eqn:V; [|reflexivity]. exfalso. apply existsb_exists in M. destruct M as (k' & A & B). apply String.eqb_eq in B. subst k'.
    assert (X : In (k, as_array w) (present I g ks)) by (apply U; split; [exact A|exists w; auto]). apply in_rev in X. apply (find_none _ _ F) in X. cbn in X. rewrite String.eqb_refl in X. discriminate.
Qed.
Lemma group_written I g todo : NoDup (map fst todo) -> group_of g (written I todo) = match find (fun p => String.eqb (fst p) g) todo with Some (_, ks) => present I g ks | None => [] end.
Proof.
  intros N. unfold group_of. induction todo as [|[g0 ks] todo IH]; [reflexivity|]. cbn [map fst] in N. inversion N as [|? ? N1 N2]; subst. cbn [written flat_map find fst snd].
  destruct (String.eqb_spec g0 g) as [->|G].
  - destruct (shown g (present I g ks)) eqn:S; cbn [List.app find fst].
    + rewrite String.eqb_refl. reflexivity.
    + destruct (find (fun p => String.eqb (fst p) g) _) as [[g2 l2]|] eqn:F.
      * exfalso. apply find_some in F. destruct F as (F1 & F2). apply String.eqb_eq in F2. cbn in F2. subst g2. apply in_flat_map in F1. destruct F1 as ([g3 ks3] & A & B). cbn [fst snd] in B. destruct (shown _ _); [|destruct B]. destruct B as [B|[]]. injection B as -> _. apply N1. apply in_map_iff. exists (g, ks3). auto.
      * destruct (present I g ks); [reflexivity|discriminate].
  - destruct (shown g0 (present I g0 ks)); cbn [List.app find fst]; [|apply IH; exact N2]. destruct (String.eqb_spec g0 g); [contradiction|]. apply IH. exact N2.
Qed.

(** ** C72 *)
(** A text of the instrument itself comes back as bytes. *)
Definition as_bytes (v : value) : value := match v with Text s => Other ("b'" ++ s ++ "'") | _ => v end.
Definition whole (I : inst) : Prop := forall g k, In (g, k) saved_names -> val I g k <> Some none.
Lemma whole_fill I : whole I -> fill I saved = (written I saved, Ok tt).
Proof. intros W. apply fill_ok. intros g ks k G K. apply W. apply saved_in. eauto. Qed.
Lemma written_groups I : (forall k, In ("Smooth", k) saved_names -> val I "Smooth" k = None) -> NoDup (map fst (written I saved)) /\ forall g l, In (g, l) (written I saved) -> sub default g = true \/ g = "".
Proof.
  intros S. split.
  - destruct saved_distinct as (N & _). unfold written. induction saved as [|[g ks] todo IH]; [constructor|]. cbn [map fst] in N. inversion N as [|? ? N1 N2]; subst. cbn [flat_map fst snd]. destruct (shown _ _); [|apply IH; exact N2]. cbn [List.app map fst]. constructor; [|apply IH; exact N2].
    intros X. apply N1. apply in_map_iff in X. destruct X as ([g' l] & E & X). cbn in E. subst g'. apply in_flat_map in X. destruct X as ([g3 ks3] & A & B). cbn [fst snd] in B. destruct (shown _ _); [|destruct B]. destruct B as [B|[]]. injection B as -> _. apply in_map_iff. exists (g, ks3). auto.
  - intros g l H. unfold written in H. apply in_flat_map in H. destruct H as ([g' ks] & A & B). cbn [fst snd] in B. destruct (shown g' (present I g' ks)) eqn:Sh; [|destruct B]. destruct B as [B|[]]. injection B as -> <-.
    destruct (string_dec g "Smooth") as [->|N].
    + exfalso. assert (P : present I "Smooth" ks = []). { unfold present. assert (X : forall k, In k ks -> val I "Smooth" k = None) by (intros k K; apply S; apply saved_in; eauto). clear -X. induction ks as [|k ks IH]; [reflexivity|]. cbn. rewrite (X k (or_introl eq_refl)). apply IH. intros k' K. apply X. right. exact K. } rewrite P in Sh. discriminate.
    + assert (C : forallb (fun p => sub default (fst p) || String.eqb (fst p) "" || String.eqb (fst p) "Smooth") saved = true) by (vm_compute; reflexivity). rewrite forallb_forall in C. specialize (C _ A). cbn [fst] in C. apply orb_prop in C. destruct C as [C|C]; [apply orb_prop in C; destruct C as [C|C]; [left; exact C|right; apply String.eqb_eq; exact C]|]. apply String.eqb_eq in C. contradiction.
Qed.
Lemma written_val I g k : lookup k (group_of g (written I saved)) = if existsb (fun p => String.eqb (fst p) g && String.eqb (snd p) k) saved_names then option_map as_array (val I g k) else None.
Proof.
  destruct saved_distinct as (N & D). rewrite group_written by exact N. destruct (find (fun p => String.eqb (fst p) g) saved) as [[g' ks]|] eqn:F.
  - apply find_some in F. destruct F as (F1 & F2). apply String.eqb_eq in F2. cbn in F2. subst g'. rewrite (lookup_present I g ks k (D g ks F1)).
    replace (mem k ks) with (existsb (fun p => String.eqb (fst p) g && String.eqb (snd p) k) saved_names); [reflexivity|]. apply eq_true_iff_eq. rewrite existsb_exists. unfold mem. rewrite existsb_exists. split.
    + intros ([g1 k1] & A & B). cbn [fst snd] in B. apply andb_prop in B. destruct B as (B1 & B2). apply String.eqb_eq in B1, B2. subst g1 k1. apply saved_in in A. destruct A as (ks' & A1 & A2). assert (ks' = ks). { clear -N F1 A1. induction saved as [|[g0 ks0] l IH]; [destruct F1|]. cbn [map fst] in N. inversion N as [|? ? N1 N2]; subst. destruct F1 as [F1|F1], A1 as [A1|A1]; try congruence; [| |apply IH; assumption]; exfalso; apply N1; apply in_map_iff; [injection F1 as -> ->; exists (g, ks')|injection A1 as -> ->; exists (g, ks)]; auto. } subst ks'. exists k. split; [exact A2|apply String.eqb_refl].
    + intros (k' & A & B). apply String.eqb_eq in B. subst k'. exists (g, k). split; [apply saved_in; eauto|]. cbn [fst snd]. rewrite !String.eqb_refl. reflexivity.
  - change (lookup k []) with (@None value). destruct (existsb _ saved_names) eqn:E; [|reflexivity]. exfalso. apply existsb_exists in E. destruct E as ([g1 k1] & A & B). cbn [fst snd] in B. apply andb_prop in B. destruct B as (B1 & B2). apply String.eqb_eq in B1. subst g1. apply saved_in in A. destruct A as (ks & A1 & _). apply (find_none _ _ F) in A1. cbn in A1. rewrite String.eqb_refl in A1. discriminate.
Qed.
Lemma taken_arr g k v : taken g k (as_array v) = if String.eqb g "" then as_bytes (as_array v) else as_array v.
Proof. unfold taken. destruct (String.eqb g ""); [destruct v; reflexivity|]. unfold attr_set. destruct (_ && _)%bool; destruct v; reflexivity. Qed.
Lemma in_names g k : existsb (fun p => String.eqb (fst p) g && String.eqb (snd p) k) saved_names = true <-> In (g, k) saved_names.
Proof.
  rewrite existsb_exists. split; [intros ([g' k'] & A & B); cbn [fst snd] in B; apply andb_prop in B; destruct B as (B1 & B2); apply String.eqb_eq in B1, B2; subst; exact A|]. intros H. exists (g, k). split; [exact H|]. cbn [fst snd]. rewrite !String.eqb_refl. reflexivity.
Qed.

(** A round trip keeps every attribute the formats know; lists become arrays and texts of the instrument itself bytes.  What the instrument does not have is
    that of a new one.  No other file is touched. *)
Theorem C72_roundtrip : forall I name f, whole I -> (forall k, In ("Smooth", k) saved_names -> val I "Smooth" k = None) ->
  exists f' J, save_h5 I name true f = (f', Ok tt) /\ (forall n, n <> name ++ ".h5" -> f' n = f n) /\ load_h5 (name ++ ".h5") f' = Ok J /\
    (forall g k v, In (g, k) saved_names -> val I g k = Some v -> val J g k = Some (if String.eqb g "" then as_bytes (as_array v) else as_array v)) /\
    (forall g k, ~ In (g, k) saved_names \/ val I g k = None -> val J g k = val default g k).
Proof.
  intros I name f W S. destruct (written_groups I S) as (N & G). destruct (load_groups_ok _ default N G) as (J & E & V).
  exists (write f (name ++ ".h5") (mkH5 [] (Some (written I saved)))), J. split; [|split; [|split; [|split]]].
  - unfold save_h5. cbv zeta. rewrite whole_fill by exact W. destruct (f (name ++ ".h5")); reflexivity.
  - intros n X. unfold write. destruct (String.eqb_spec n (name ++ ".h5")); [contradiction|reflexivity].
  - unfold load_h5, write. rewrite String.eqb_refl. cbn [instrument]. exact E.
  - intros g k v K Vi. rewrite V, written_val. apply in_names in K. rewrite K, Vi. cbn [option_map]. rewrite taken_arr. reflexivity.
  - intros g k K. rewrite V, written_val. destruct (existsb _ saved_names) eqn:X; [|reflexivity]. apply in_names in X. destruct K as [K|K]; [contradiction|]. rewrite K. reflexivity.
Qed.
Print Assumptions C72_roundtrip.
(** Smoothing parameters are written but cannot be read back. *)
Theorem C72_smooth : forall I name f k v, whole I -> In ("Smooth", k) saved_names -> val I "Smooth" k = Some v ->
  exists f', save_h5 I name true f = (f', Ok tt) /\ load_h5 (name ++ ".h5") f' = Err AttributeError.
Proof.
  intros I name f k v W K V. exists (write f (name ++ ".h5") (mkH5 [] (Some (written I saved)))). split.
  - unfold save_h5. cbv zeta. rewrite whole_fill by exact W. destruct (f (name ++ ".h5")); reflexivity.
  - unfold load_h5, write. rewrite String.eqb_refl. cbn [instrument]. apply saved_in in K. destruct K as (ks & K1 & K2). apply (load_groups_missing _ default "Smooth" (present I "Smooth" ks)); [|reflexivity|discriminate].
    apply in_flat_map. exists ("Smooth", ks). split; [exact K1|]. cbn [fst snd]. destruct (present I "Smooth" ks) as [|p l] eqn:P; [|left; reflexivity].
    exfalso. assert (X : In (k, as_array v) (present I "Smooth" ks)) by (apply in_flat_map; exists k; split; [exact K2|rewrite V; left; reflexivity]). rewrite P in X. destruct X.
Qed.
Print Assumptions C72_smooth.
Lemma fill_last I todo gs e : fill I todo = (gs, Err e) -> exists l, In (last (map fst todo) "", l) gs.
Proof.
  revert gs. induction todo as [|[g ks] todo IH]; intros gs H; [discriminate|]. cbn [fill] in H. destruct (attributes I g ks) as [l [[]|e']] eqn:A.
  - destruct (fill I todo) as [r o] eqn:F. apply pair_equal_spec in H. destruct H as (Hgs & ->). destruct (IH r eq_refl) as (l' & L). assert (T : todo <> []) by (intros ->; discriminate F).
    replace (last (map fst ((g, ks) :: todo)) "") with (last (map fst todo) "") by (destruct todo; [contradiction|reflexivity]). exists l'. rewrite <- Hgs. destruct l; [destruct (String.eqb g "")|]; (try (right; exact L)); exact L.
  - injection H as <- <-. destruct todo as [|p todo]; [eexists; left; reflexivity|]. exists []. right. change (last (map fst ((g, ks) :: p :: todo)) "") with (last (map fst (p :: todo)) ""). clear. apply in_map_iff.
    assert (X : exists q, In q (p :: todo) /\ fst q = last (map fst (p :: todo)) "").
    { revert p. induction todo as [|q todo IH]; intros p; [exists p; split; [left; reflexivity|reflexivity]|]. destruct (IH q) as (x & A & B). exists x. split; [right; exact A|exact B]. }
    destruct X as (q & A & B). exists q. rewrite B. auto.
Qed.
(** One attribute that is None spoils the file: saving fails half way, what it leaves cannot be loaded, and no instrument can be added to it. *)
Theorem C72_none : forall I name f g k, In (g, k) saved_names -> val I g k = Some none ->
  exists f', save_h5 I name true f = (f', Err TypeError) /\ load_h5 (name ++ ".h5") f' = Err AttributeError /\ forall I', save_h5 I' name false f' = (f', Err ValueError).
Proof.
  intros I name f g k K V. apply saved_in in K. destruct K as (ks & G & K). destruct (fill_bad I saved g ks k G K V) as (gs & F & _). destruct (fill_last I saved gs _ F) as (l & L).
  exists (write f (name ++ ".h5") (mkH5 [] (Some gs))). split; [|split].
  - unfold save_h5. cbv zeta. rewrite F. destruct (f (name ++ ".h5")); reflexivity.
  - unfold load_h5, write. rewrite String.eqb_refl. cbn [instrument]. apply (load_groups_missing _ default "Smooth" l); [exact L|reflexivity|discriminate].
  - intros I'. unfold save_h5, write. cbv zeta. rewrite String.eqb_refl. reflexivity.
Qed.
Print Assumptions C72_none.
(** Without overwriting: a file with an instrument stays as it is; one without gets it beside what it holds, which overwriting drops. *)
Theorem C72_append : forall I name f h, f (name ++ ".h5") = Some h -> whole I ->
  (instrument h <> None -> save_h5 I name false f = (f, Err ValueError)) /\
  (instrument h = None -> exists f' h', save_h5 I name false f = (f', Ok tt) /\ f' (name ++ ".h5") = Some h' /\ rest h' = rest h /\ load_h5 (name ++ ".h5") f' = load_h5 (name ++ ".h5") (fst (save_h5 I name true f))) /\
  (exists f' h', save_h5 I name true f = (f', Ok tt) /\ f' (name ++ ".h5") = Some h' /\ rest h' = []).
Proof.
  intros I name f h H W. unfold save_h5. cbv zeta. rewrite H. split; [|split].
  - intros N. destruct (instrument h); [reflexivity|contradiction].
  - intros ->. rewrite whole_fill by exact W. do 2 eexists. split; [reflexivity|]. unfold write, load_h5. rewrite String.eqb_refl. split; [reflexivity|]. split; [reflexivity|]. cbn [instrument fst]. rewrite String.eqb_refl. reflexivity.
  - cbn [instrument]. rewrite whole_fill by exact W. do 2 eexists. split; [reflexivity|]. unfold write. rewrite String.eqb_refl. split; reflexivity.
Qed.
Print Assumptions C72_append.
(** A second round trip changes nothing more. *)
Theorem C72_again : forall I name f J, whole I -> load_h5 (name ++ ".h5") (fst (save_h5 I name true f)) = Ok J ->
  exists f' J', save_h5 J name true f = (f', Ok tt) /\ load_h5 (name ++ ".h5") f' = Ok J' /\ forall g k, val J' g k = val J g k.
Proof.
  intros I name f J W L.
  assert (S : forall k, In ("Smooth", k) saved_names -> val I "Smooth" k = None).
  { intros k K. destruct (val I "Smooth" k) as [v|] eqn:V; [|reflexivity]. destruct (C72_smooth I name f k v W K V) as (f' & E & F). rewrite E in L. cbn [fst] in L. congruence. }
  destruct (C72_roundtrip I name f W S) as (f' & J0 & E & _ & L' & A & B). rewrite E in L. cbn [fst] in L. assert (J0 = J) by congruence. subst J0. clear L L' E f'.
  assert (C : forallb (fun p => match val default (fst p) (snd p) with Some w => (if value_eq_dec w none then false else true) && (if value_eq_dec (if String.eqb (fst p) "" then as_bytes (as_array w) else as_array w) w then true else false) | None => true end) saved_names = true) by (vm_compute; reflexivity).
  assert (D : forall g k w, In (g, k) saved_names -> val default g k = Some w -> w <> none /\ (if String.eqb g "" then as_bytes (as_array w) else as_array w) = w).
  { intros g k w K V. rewrite forallb_forall in C. specialize (C _ K). cbn [fst snd] in C. rewrite V in C. apply andb_prop in C. destruct C as (C1 & C2). destruct (value_eq_dec w none); [discriminate|]. destruct (value_eq_dec _ w); [auto|discriminate]. }
  clear C.
  assert (WJ : whole J). { intros g k K. destruct (val I g k) as [v|] eqn:V; [rewrite (A g k v K V)|rewrite (B g k (or_intror V))].
    - assert (X := W g k K). rewrite V in X. intros E. assert (v <> none) by congruence. assert (Q : (if String.eqb g "" then as_bytes (as_array v) else as_array v) = none) by congruence. destruct (String.eqb g ""); destruct v; cbn in Q; try discriminate Q; congruence.
    - intros E. destruct (D g k none K E) as (X & _). apply X. reflexivity. }
  assert (SJ : forall k, In ("Smooth", k) saved_names -> val J "Smooth" k = None) by (intros k K; rewrite (B "Smooth" k (or_intror (S k K))); reflexivity).
  destruct (C72_roundtrip J name f WJ SJ) as (f' & J' & E & _ & L' & A' & B'). exists f', J'. split; [exact E|]. split; [exact L'|]. intros g k.
  destruct (existsb (fun p => String.eqb (fst p) g && String.eqb (snd p) k) saved_names) eqn:X.
  - apply in_names in X. destruct (val J g k) as [w|] eqn:V.
    + rewrite (A' g k w X V). f_equal. destruct (val I g k) as [v|] eqn:VI.
      * rewrite (A g k v X VI) in V. injection V as <-. destruct (String.eqb g ""); destruct v; reflexivity.
      * rewrite (B g k (or_intror VI)) in V. apply (D g k w X V).
    + rewrite (B' g k (or_intror V)). destruct (val I g k) as [v|] eqn:VI; [rewrite (A g k v X VI) in V; discriminate|]. rewrite <- V. symmetry. apply B. right. exact VI.
  - assert (N : ~ In (g, k) saved_names) by (intros Y; apply in_names in Y; congruence). rewrite (B' g k (or_introl N)), (B g k (or_introl N)). reflexivity.
Qed.
Print Assumptions C72_again.

(** C72.  A file that does not exist, or one that holds no instrument, is not loaded as a default instrument; in particular not what saving to another name, or not saving at all, leaves. *)
Theorem C72_missing : forall I name n f ow, n <> name ++ ".h5" ->
  (f n = None -> load_h5 n (fst (save_h5 I name ow f)) = Err OSError) /\
  (forall h, f n = Some h -> instrument h = None -> load_h5 n (fst (save_h5 I name ow f)) = Err KeyError).
Proof.
  intros I name n f ow N.
  assert (E : fst (save_h5 I name ow f) n = f n).
  { assert (X : forall h, write f (name ++ ".h5") h n = f n) by (intros h; unfold write; destruct (String.eqb_spec n (name ++ ".h5")); [contradiction|reflexivity]).
    unfold save_h5. repeat match goal with |- context [match ?e with _ => _ end] => destruct e end; cbn [fst]; auto. }
  split; [intros F|intros h F H]; unfold load_h5; rewrite E, F; [reflexivity|rewrite H; reflexivity].
Qed.
Print Assumptions C72_missing.
Example C72_missing_case : let f := fun n => if String.eqb n "data.h5" then Some (mkH5 ["entry"] None) else None in
  load_h5 "other.h5" (fst (save_h5 default "x" true f)) = Err OSError /\ load_h5 "data.h5" (fst (save_h5 default "x" true f)) = Err KeyError.
Proof. cbv zeta. split; [apply C72_missing; [discriminate|reflexivity]|]. apply (C72_missing default "x" "data.h5" _ true) with (h := mkH5 ["entry"] None); [discriminate|reflexivity|reflexivity]. Qed.

(** ** Examples *)
Example C72_example : let I := put (put default "" "method" (Text "Popovici")) "sample" "u" (Arr ["1"; "1"; "0"]) in
  whole I /\ (forall k, In ("Smooth", k) saved_names -> val I "Smooth" k = None) /\
  exists J, load_h5 "x.h5" (fst (save_h5 I "x" true (fun _ => None))) = Ok J /\ val J "" "method" = Some (Other "b'Popovici'") /\ val J "sample" "u" = Some (Arr ["1"; "1"; "0"]) /\ val J "mono" "tau" = Some (Text "PG(002)").
Proof.
  cbv zeta. set (I := put _ _ _ _). split; [|split].
  - intros g k K. assert (C : forallb (fun p => match val I (fst p) (snd p) with Some w => if value_eq_dec w none then false else true | None => true end) saved_names = true) by (vm_compute; reflexivity). rewrite forallb_forall in C. specialize (C _ K). cbn [fst snd] in C. intros E. rewrite E in C. discriminate.
  - intros k K. reflexivity.
  - eexists. split; [vm_compute; reflexivity|]. repeat split; vm_compute; reflexivity.
Qed.
Example C72_smooth_example : In ("Smooth", "X") saved_names /\ val (put default "Smooth" "X" (Num "0.01")) "Smooth" "X" = Some (Num "0.01").
Proof. split; [apply in_names; reflexivity|reflexivity]. Qed.
Example C72_none_example : In ("mono", "vmosaic") saved_names /\ val (put default "mono" "vmosaic" none) "mono" "vmosaic" = Some none.
Proof. split; [apply in_names; reflexivity|reflexivity]. Qed.

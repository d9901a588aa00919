(** C101: printed objects as program text. *)
From Coq Require Import String List Arith Bool ZArith Reals Lra.
From Verif Require Import Base LinAlg EnergyModel LatticeModel ToolsModel CompModel CompProps PrintModel.
From Verif Require SymData SymModel SymGroup SymProps.
Import ListNotations.
Local Open Scope string_scope.

(** ** Matching of arguments *)
Definition worth (r : res value) : option value := match r with Ok NoneV => None | Ok v => Some v | Err _ => None end.
Definition numeric (r : res value) : Prop := exists x, r = Ok (Num x).
Definition absent (r : res value) : Prop := r = Err AttributeError.

Lemma mem_in k l : mem k l = true <-> In k l.
Proof. unfold mem. rewrite existsb_exists. split; [intros (x & H & E); apply String.eqb_eq in E; subst; exact H|intros H; exists k; rewrite String.eqb_refl; auto]. Qed.
Lemma lookup_none {A} k (l : list (string * A)) : given k l = false -> lookup k l = None.
Proof.
  unfold given, lookup, mem. induction l as [|[a v] l IH]; cbn; [reflexivity|]. rewrite String.eqb_sym. destruct (String.eqb a k); cbn; [discriminate|exact IH].
Qed.
Lemma lookup_cons {A} k a (v : A) l : lookup k ((a, v) :: l) = if String.eqb a k then Some v else lookup k l.
Proof. unfold lookup. cbn. destruct (String.eqb a k); reflexivity. Qed.
Lemma lookup_app {A} k (l m : list (string * A)) : lookup k (List.app l m) = match lookup k l with Some v => Some v | None => lookup k m end.
Proof. induction l as [|[a v] l IH]; [reflexivity|]. cbn [List.app]. rewrite !lookup_cons. destruct (String.eqb a k); [reflexivity|exact IH]. Qed.
(** Printed pairs of numbers are read back. *)
Lemma read_pairs get ks : NoDup ks -> (forall k, In k ks -> numeric (get k) \/ absent (get k)) ->
  exists kw, read_named (pairs get ks) = Some kw /\ NoDup (map fst kw) /\ (forall k, In k (map fst kw) -> In k ks) /\ forall k, lookup k kw = if mem k ks then worth (get k) else None.
Proof.
  induction ks as [|k ks IH]; intros N H.
  - exists []. repeat split; [constructor|intros k []].
  - inversion N as [|? ? N1 N2]; subst. destruct IH as (kw & R & D & S & L); [exact N2|intros j J; apply H; right; exact J|].
    assert (M : mem k ks = false) by (destruct (mem k ks) eqn:M; [apply mem_in in M; contradiction|reflexivity]).
    unfold pairs. cbn [flat_map]. fold (pairs get ks). destruct (H k (or_introl eq_refl)) as [[x E]|E]; rewrite E; cbn [List.app show read_named read].
    + rewrite R. exists ((k, Num x) :: kw). split; [reflexivity|]. split; [cbn; constructor; [intros X; apply N1, S, X|exact D]|]. split; [cbn; intros j [<-|J]; auto|].
      intros j. rewrite lookup_cons. unfold mem. cbn [existsb]. rewrite (String.eqb_sym j k). destruct (String.eqb_spec k j) as [<-|X]; [rewrite E; reflexivity|]. cbn [orb]. exact (L j).
    + exists kw. split; [exact R|]. split; [exact D|]. split; [intros j J; right; apply S, J|].
      intros j. unfold mem. cbn [existsb]. rewrite (String.eqb_sym j k). destruct (String.eqb_spec k j) as [<-|X]; cbn [orb]; [rewrite L, M, E; reflexivity|exact (L j)].
Qed.
Lemma named_ok params l got : NoDup (map fst l) -> (forall k, In k (map fst l) -> given k params = true /\ ~ In k (map fst got)) -> named params got l = Ok (List.app got l).
Proof.
  revert got. induction l as [|[k v] l IH]; intros got N H; [cbn; rewrite app_nil_r; reflexivity|]. cbn [map fst] in N, H. inversion N as [|? ? N1 N2]; subst. cbn [named].
  destruct (H k (or_introl eq_refl)) as [P G]. assert (M : given k got = false) by (unfold given; destruct (mem k (map fst got)) eqn:M; [apply mem_in in M; contradiction|reflexivity]). rewrite M, P.
  rewrite IH; [rewrite <- app_assoc; reflexivity|exact N2|]. intros j J. split; [apply H; right; exact J|]. rewrite map_app. intros X. apply in_app_or in X. destruct X as [X|[<-|[]]]; [exact (proj2 (H j (or_intror J)) X)|contradiction].
Qed.
Definition or_none (o : option value) : value := match o with Some v => v | None => NoneV end.
Lemma kept_worth r : numeric r \/ absent r -> kept (or_none (worth r)) = r.
Proof. intros [[x ->]| ->]; reflexivity. Qed.
Lemma complete_cons k d r got : complete ((k, d) :: r) got = match (match lookup k got with Some v => Some v | None => d end) with Some v => bind (complete r got) (fun m => Ok (v :: m)) | None => Err TypeError end.
Proof. cbn [complete]. destruct (lookup k got); [reflexivity|]. destruct d; reflexivity. Qed.

(** ** Monochromators and analyzers *)
Definition sizes : list string := ["vmosaic"; "height"; "width"; "depth"; "rh"; "rv"].
Lemma show_two o x y : mono_get "tau" o = Ok (Num x) -> mono_get "mosaic" o = Ok (Num y) -> texts (fun k => mono_get k o) ["tau"; "mosaic"] = Ok [TNumber x; TNumber y].
Proof. intros A B. unfold texts. cbn [map_res]. rewrite A, B. reflexivity. Qed.
Ltac inlist K := cbn in K; repeat (destruct K as [<-|K]; [|]); try destruct K.
(** The text of a monochromator given in numbers makes the same monochromator: every attribute that can be given, and the spacing. *)
Theorem C101_monochromator : forall o t d, mono_get "tau" o = Ok (Num t) -> numeric (mono_get "mosaic" o) -> numeric (mono_get "direct" o) ->
  (forall k, In k sizes -> numeric (mono_get k o) \/ absent (mono_get k o)) -> mono_get "d" o = Ok (Num d) -> spacing CMonochromator (TNum t) = Ok d ->
  exists c o', mono_repr o = Ok c /\ run mono_params mono_make c = Some (Ok o') /\
    forall k, In k ("tau" :: "mosaic" :: "direct" :: "d" :: sizes) -> mono_get k o' = mono_get k o.
Proof.
  intros o t d T [m M] Dn S D Sp. unfold mono_repr. rewrite (show_two o t m T M). cbn [bind].
  destruct (read_pairs (fun k => mono_get k o) ("direct" :: sizes)) as (kw & R & N & U & L).
  { repeat constructor; cbn; intuition discriminate. }
  { intros k [<-|K]; [left; exact Dn|exact (S k K)]. }
  match goal with |- exists c o', Ok ?x = Ok c /\ _ => exists x end. unfold run. cbn [c_args c_named]. cbn [read_all read]. unfold sizes in R. rewrite R. 
  assert (A : arguments mono_params [Num t; Num m] kw = Ok [Num t; Num m; or_none (worth (mono_get "direct" o)); or_none (worth (mono_get "vmosaic" o)); or_none (worth (mono_get "height" o)); or_none (worth (mono_get "width" o)); or_none (worth (mono_get "depth" o)); or_none (worth (mono_get "rh" o)); or_none (worth (mono_get "rv" o))]).
  { unfold arguments. unfold mono_params at 1. cbn [positional bind]. rewrite named_ok; [|exact N|].
    - cbn [bind List.app]. unfold mono_params. rewrite !complete_cons. cbn [complete]. rewrite !lookup_cons. cbn [String.eqb Ascii.eqb Bool.eqb]. rewrite !L. cbn [mem sizes existsb String.eqb Ascii.eqb Bool.eqb orb].
      destruct Dn as [x ->]. cbn [worth or_none]. unfold or_none. repeat match goal with |- context [worth ?r] => destruct (worth r) end; reflexivity.
    - intros k K. apply U in K. split; [inlist K; reflexivity|]. cbn. cbn in K. intuition congruence. }
  rewrite A. cbn [bind mono_make]. destruct (mono_init CMonochromator _ _ _ _ _ _ _ _ _) as [o'|e] eqn:I.
  - exists o'. split; [reflexivity|]. split; [reflexivity|]. apply C45_monochromator in I. destruct I as (I1 & I2 & I3 & I4 & I5 & I6 & I7 & I8 & I9 & d' & I10 & I11).
    cbn [tau_of] in I11. assert (d' = d) by congruence. subst d'. rewrite kept_worth in I4, I5, I6, I7, I8, I9 by (apply S; cbn; tauto).
    destruct Dn as [x Dn]. rewrite Dn in I3. cbn [worth or_none] in I3. intros k K. inlist K; congruence.
  - exfalso. unfold mono_init in I. cbn [tau_of] in I. rewrite Sp in I. discriminate.
Qed.
Print Assumptions C101_monochromator.
(** That of an analyzer makes one that agrees in reflection, mosaic, focusing, thickness and reflectivity, but has direction -1 and nothing of the rest. *)
Theorem C101_analyzer : forall o t d, mono_get "tau" o = Ok (Num t) -> numeric (mono_get "mosaic" o) -> numeric (mono_get "direct" o) -> numeric (mono_get "horifoc" o) ->
  (forall k, In k ("thickness" :: "Q" :: sizes) -> numeric (mono_get k o) \/ absent (mono_get k o)) -> mono_get "d" o = Ok (Num d) -> spacing CAnalyzer (TNum t) = Ok d ->
  exists c o', ana_repr o = Ok c /\ run ana_params ana_make c = Some (Ok o') /\
    (forall k, In k ["tau"; "mosaic"; "horifoc"; "thickness"; "Q"; "d"] -> mono_get k o' = mono_get k o) /\
    mono_get "direct" o' = Ok (Num (-1)) /\ (forall k, In k sizes -> mono_get k o' = Err AttributeError).
Proof.
  intros o t d T [m M] Dn H S D Sp. unfold ana_repr. rewrite (show_two o t m T M). cbn [bind].
  destruct (read_pairs (fun k => mono_get k o) (List.app ("direct" :: sizes) ["horifoc"; "thickness"; "Q"])) as (kw & R & N & U & L).
  { repeat constructor; cbn; intuition discriminate. }
  { intros k K. inlist K; auto; apply S; cbn; tauto. }
  match goal with |- exists c o', Ok ?x = Ok c /\ _ => exists x end. unfold run. cbn [c_args c_named]. cbn [read_all read]. unfold sizes in R. cbn [List.app] in R. rewrite R.
  assert (A : exists dv vm he wi de h v, arguments ana_params [Num t; Num m] kw = Ok [Num t; Num m; dv; vm; he; wi; de; h; v; or_none (worth (mono_get "horifoc" o)); or_none (worth (mono_get "thickness" o)); or_none (worth (mono_get "Q" o))]).
  { unfold arguments. unfold ana_params at 1. unfold mono_params at 1. cbn [List.app positional bind]. rewrite named_ok; [|exact N|].
    - cbn [bind List.app]. unfold ana_params, mono_params. cbn [List.app]. rewrite !complete_cons. cbn [complete]. rewrite !lookup_cons. cbn [String.eqb Ascii.eqb Bool.eqb]. rewrite !L. cbn [mem sizes List.app existsb String.eqb Ascii.eqb Bool.eqb orb].
      destruct H as [x ->]. cbn [worth or_none]. unfold or_none. repeat match goal with |- context [worth ?r] => destruct (worth r) end; do 7 eexists; reflexivity.
    - intros k K. apply U in K. split; [inlist K; reflexivity|]. cbn. cbn in K. intuition congruence. }
  destruct A as (dv & vm & he & wi & de & h & v & A). rewrite A. cbn [bind ana_make]. destruct (ana_init CAnalyzer _ _ _ _ _ _ _ _ _ _ _ _) as [o'|e] eqn:I.
  - exists o'. split; [reflexivity|]. split; [reflexivity|].
    assert (DD : mono_get "d" o' = Ok (Num d)).
    { unfold ana_init, mono_init in I. cbn [tau_of] in I. rewrite Sp in I. cbn [bind put_opt] in I. apply Ok_inj in I. subst o'. read. }
    apply C45_analyzer in I. destruct I as (I1 & I2 & I3 & I4 & I5 & I6 & I7). split; [|split; [exact I6|exact I7]].
    rewrite kept_worth in I4, I5 by (apply S; cbn; tauto). destruct H as [x H]. rewrite H in I3. cbn [worth or_none] in I3. intros k K. inlist K; congruence.
  - exfalso. unfold ana_init, mono_init in I. cbn [tau_of] in I. rewrite Sp in I. discriminate.
Qed.
Print Assumptions C101_analyzer.
(** The text of a crystal given by name cannot be run. *)
Theorem C101_named_crystal : forall o s c, mono_get "tau" o = Ok (Str s) ->
  (mono_repr o = Ok c -> run mono_params mono_make c = None) /\ (ana_repr o = Ok c -> run ana_params ana_make c = None).
Proof.
  intros o s c T. unfold mono_repr, ana_repr, texts. cbn [map_res]. rewrite T. cbn [bind show]. destruct (mono_get "mosaic" o); cbn [bind]; split; intros H; try discriminate; injection H as <-; reflexivity.
Qed.
Print Assumptions C101_named_crystal.

(** ** Samples *)
Lemma read_all_none l t : In t l -> read t = None -> read_all l = None.
Proof. induction l as [|a l IH]; intros I N; [destruct I|]. cbn. destruct I as [->|I]; [rewrite N; reflexivity|]. rewrite (IH I N). destruct (read a); reflexivity. Qed.
Lemma read_named_none l k t : In (k, t) l -> read t = None -> read_named l = None.
Proof. induction l as [|[a b] l IH]; intros I N; [destruct I|]. cbn. destruct I as [E|I]; [injection E as -> ->; rewrite N; reflexivity|]. rewrite (IH I N). destruct (read b); reflexivity. Qed.
Lemma read_array l : 2 <= List.length l -> read (TArray l) = None.
Proof. destruct l as [|x [|y l]]; cbn; intros H; try reflexivity; exfalso; [inversion H|inversion H as [|? H']; inversion H']. Qed.
(** The text of a sample with an orientation cannot be run. *)
Theorem C101_oriented_sample : forall o c k l, In k ["u"; "v"] -> sample_get k o = Ok (Vec l) -> 2 <= List.length l -> sample_repr o = Ok c -> run sample_params sample_make c = None.
Proof.
  intros o c k l K G N H. unfold sample_repr in H. destruct (texts _ _) as [args|e]; [|discriminate]. cbn [bind] in H. apply Ok_inj in H. subst c. unfold run. cbn [c_args c_named].
  rewrite (read_named_none _ k (TArray l)); [destruct (read_all args); reflexivity| |apply read_array; exact N].
  unfold pairs. apply in_flat_map. exists k. split; [cbn in *; tauto|]. rewrite G. left. reflexivity.
Qed.
Print Assumptions C101_oriented_sample.
(** That of a sample without one, given in numbers, makes a sample that agrees in the cell, the mosaics, the direction and the size, but is rectangular
    and has no distance. *)
Theorem C101_sample : forall o, (forall k, In k ["a"; "b"; "c"; "alpha"; "beta"; "gamma"; "direct"] -> numeric (sample_get k o)) ->
  (forall k, In k ["u"; "v"; "shape"] -> absent (sample_get k o)) ->
  (forall k, In k ["mosaic"; "vmosaic"; "width"; "height"; "depth"] -> numeric (sample_get k o) \/ absent (sample_get k o)) ->
  exists c o', sample_repr o = Ok c /\ run sample_params sample_make c = Some (Ok o') /\
    (forall k, In k ["a"; "b"; "c"; "alpha"; "beta"; "gamma"; "direct"; "u"; "v"; "mosaic"; "vmosaic"; "width"; "height"; "depth"] -> sample_get k o' = sample_get k o) /\
    sample_get "shape_type" o' = Ok (Str "rectangular") /\ sample_get "distance" o' = Err AttributeError.
Proof.
  intros o Nu Ab Op.
  destruct (Nu "a") as [a Ha]; [cbn; tauto|]. destruct (Nu "b") as [b Hb]; [cbn; tauto|]. destruct (Nu "c") as [c Hc]; [cbn; tauto|].
  destruct (Nu "alpha") as [al Hal]; [cbn; tauto|]. destruct (Nu "beta") as [be Hbe]; [cbn; tauto|]. destruct (Nu "gamma") as [ga Hga]; [cbn; tauto|]. destruct (Nu "direct") as [di Hdi]; [cbn; tauto|].
  assert (Hu := Ab "u" ltac:(cbn; tauto)). assert (Hv := Ab "v" ltac:(cbn; tauto)). assert (Hs := Ab "shape" ltac:(cbn; tauto)). unfold absent in Hu, Hv, Hs.
  unfold sample_repr, texts. cbn [map_res]. rewrite Ha, Hb, Hc, Hal, Hbe, Hga. cbn [bind show].
  destruct (read_pairs (fun k => sample_get k o) ["u"; "v"; "mosaic"; "vmosaic"; "direct"; "width"; "height"; "depth"; "shape"]) as (kw & R & N & U & L).
  { repeat constructor; cbn; intuition discriminate. }
  { intros k K. inlist K; auto; try (right; assumption); try (left; eexists; eassumption); apply Op; cbn; tauto. }
  match goal with |- exists c o', Ok ?x = Ok c /\ _ => exists x end. unfold run. cbn [c_args c_named]. cbn [read_all read]. rewrite R.
  assert (A : arguments sample_params [Num a; Num b; Num c; Num al; Num be; Num ga] kw =
    Ok [Num a; Num b; Num c; Num al; Num be; Num ga; NoneV; NoneV; or_none (worth (sample_get "mosaic" o)); or_none (worth (sample_get "vmosaic" o)); Num di;
        or_none (worth (sample_get "width" o)); or_none (worth (sample_get "height" o)); or_none (worth (sample_get "depth" o)); Str "rectangular"; NoneV]).
  { unfold arguments. unfold sample_params at 1. cbn [positional bind]. rewrite named_ok; [|exact N|].
    - cbn [bind List.app]. unfold sample_params. rewrite !complete_cons. cbn [complete]. rewrite !lookup_cons. cbn [String.eqb Ascii.eqb Bool.eqb]. rewrite !L. cbn [mem existsb String.eqb Ascii.eqb Bool.eqb orb].
      rewrite Hu, Hv, Hs, Hdi. cbn [worth]. unfold or_none. repeat match goal with |- context [worth ?r] => destruct (worth r) end; reflexivity.
    - intros k K. apply U in K. split; [inlist K; reflexivity|]. intros X. inlist K; cbn in X; repeat (destruct X as [X|X]; [discriminate|]); destruct X. }
  rewrite A. cbn [bind sample_make]. eexists. split; [reflexivity|]. split; [reflexivity|].
  match goal with |- context [sample_init ?a ?b ?c ?d ?e ?f ?g ?h ?i ?j ?k ?l ?m ?n ?p ?q] => assert (I := C45_sample a b c d e f g h i j k l m n p q) end. cbv zeta in I.
  destruct I as (I1 & I2 & I3 & I4 & I5 & I6 & I7 & I8 & I9 & I10 & I11 & I12 & I13 & I14 & I15 & I16).
  rewrite kept_worth in I9, I10, I12, I13, I14 by (apply Op; cbn; tauto). split; [|split; assumption].
  intros k K. inlist K; cbn [kept] in *; congruence.
Qed.
Print Assumptions C101_sample.
(** Lattices come back. *)
Theorem C101_lattice : forall o, (forall k, In k ["a"; "b"; "c"; "alpha"; "beta"; "gamma"] -> numeric (sample_get k o)) ->
  exists c o', lattice_repr o = Ok c /\ run lattice_params lattice_make c = Some (Ok o') /\ forall k, In k ["a"; "b"; "c"; "alpha"; "beta"; "gamma"] -> sample_get k o' = sample_get k o.
Proof.
  intros o Nu.
  destruct (Nu "a") as [a Ha]; [cbn; tauto|]. destruct (Nu "b") as [b Hb]; [cbn; tauto|]. destruct (Nu "c") as [c Hc]; [cbn; tauto|].
  destruct (Nu "alpha") as [al Hal]; [cbn; tauto|]. destruct (Nu "beta") as [be Hbe]; [cbn; tauto|]. destruct (Nu "gamma") as [ga Hga]; [cbn; tauto|].
  unfold lattice_repr, texts. cbn [map_res]. rewrite Ha, Hb, Hc, Hal, Hbe, Hga. cbn [bind show]. do 2 eexists. split; [reflexivity|]. split; [reflexivity|].
  intros k K. inlist K; rewrite ?Ha, ?Hb, ?Hc, ?Hal, ?Hbe, ?Hga; reflexivity.
Qed.
Print Assumptions C101_lattice.

(** ** Goniometers, detectors, atoms *)
(** A goniometer made of numbers and lists comes back; one with an array for a vector does not. *)
Definition plain (v : value) : option text := match v with Num x => Some (TNumber x) | Vec l => Some (TList l) | _ => None end.
Theorem C101_goniometer : forall vs ts, List.length vs = 7 ->
  (map plain vs = map Some ts -> run gonio_params gonio_make (gonio_repr ts) = Some (Ok vs)) /\
  (forall l, In (TArray l) ts -> 2 <= List.length l -> run gonio_params gonio_make (gonio_repr ts) = None).
Proof.
  intros vs ts Le. split.
  - intros P. assert (R : read_all ts = Some vs).
    { clear Le. revert ts P. induction vs as [|v vs IH]; intros [|t ts] P; try discriminate; [reflexivity|]. cbn [map] in P. injection P as P1 P2. cbn. rewrite (IH ts P2). destruct v; cbn in P1; try discriminate; injection P1 as <-; reflexivity. }
    unfold run, gonio_repr. cbn [c_args c_named read_named]. rewrite R. clear R P. do 7 (destruct vs as [|? vs]; [discriminate|]). destruct vs; [|discriminate]. reflexivity.
  - intros l I N. unfold run, gonio_repr. cbn [c_args]. rewrite (read_all_none ts (TArray l) I); [reflexivity|]. apply read_array, N.
Qed.
Print Assumptions C101_goniometer.
(** The text of a detector never makes one, nor does that of an atom. *)
Theorem C101_detector_atom : (forall A (make : list value -> res A) s w h r o d, run detector_params make (detector_repr s w h r o d) = None \/ run detector_params make (detector_repr s w h r o d) = Some (Err TypeError)) /\
  (forall A (make : list value -> res A) ion, run atom_params make (atom_repr ion) = Some (Err TypeError) /\ run magnetic_atom_params make (atom_repr ion) = Some (Err TypeError)).
Proof.
  split; [|intros A make ion; split; reflexivity]. intros A make s w h r o d. unfold run, detector_repr. cbn [c_args c_named read_named read].
  destruct (read_all [s; w; h; r]) as [l|] eqn:E; [|left; reflexivity]. destruct (read (match o with Some t => t | None => TNone end)); [|left; reflexivity]. destruct (read (match d with Some t => t | None => TNone end)); [|left; reflexivity].
  right. cbn [read_all] in E. destruct (read s), (read w), (read h), (read r); try discriminate. injection E as <-. reflexivity.
Qed.
Print Assumptions C101_detector_atom.

(** Nor would that of a detector with the numbers of pixels added: no parameter is called resolution. *)
Theorem C101_detector_pixels : forall A (make : list value -> res A) s w h r o d hp vp, let c := detector_repr s w h r o d in let c := mkCall (List.app (c_args c) [hp; vp]) (c_named c) in
  run detector_params make c = None \/ run detector_params make c = Some (Err TypeError).
Proof.
  intros A make s w h r o d hp vp. unfold run, detector_repr. cbn [c_args c_named read_named read List.app].
  destruct (read_all [s; w; h; r; hp; vp]) as [l|] eqn:E; [|left; reflexivity]. destruct (read (match o with Some t => t | None => TNone end)); [|left; reflexivity]. destruct (read (match d with Some t => t | None => TNone end)); [|left; reflexivity].
  right. cbn [read_all] in E. destruct (read s), (read w), (read h), (read r), (read hp), (read vp); try discriminate. injection E as <-. reflexivity.
Qed.
Print Assumptions C101_detector_pixels.
(** The named arguments that are shown of a crystal or a sample are never None. *)
Theorem C101_shown : forall o c k t, (mono_repr o = Ok c \/ ana_repr o = Ok c \/ sample_repr o = Ok c) -> In (k, t) (c_named c) -> t <> TNone.
Proof.
  assert (P : forall get ks k t, In (k, t) (pairs get ks) -> t <> TNone). { intros get ks k t H. unfold pairs in H. apply in_flat_map in H. destruct H as (k' & _ & H). destruct (get k') as [[|x|s|l]|e]; try contradiction; destruct H as [H|[]]; injection H as _ <-; discriminate. }
  assert (Q : forall (a : res (list text)) l c k t, bind a (fun args => Ok (mkCall args l)) = Ok c -> In (k, t) (c_named c) -> In (k, t) l) by (intros [a|e] l c k t H; [injection H as <-; auto|discriminate]).
  intros o c k t [H|[H|H]] I; (eapply P, (Q _ _ _ _ _ H I)).
Qed.
Print Assumptions C101_shown.

(** What is not said: monochromators and analyzers turn by -1 and analyzers do not focus, samples turn by 1, goniometers start at omega 0 and take tilts by name in any order, triple-axis instruments have 14.7 meV and time-of-flight instruments 3. *)
Theorem C101_defaults :
  (forall t m o, bind (arguments mono_params [t; m] []) mono_make = Ok o -> mono_get "direct" o = Ok (Num (-1))) /\
  (forall t m o, bind (arguments ana_params [t; m] []) ana_make = Ok o -> mono_get "direct" o = Ok (Num (-1)) /\ mono_get "horifoc" o = Ok (Num (-1))) /\
  (forall a b c al be ga, exists o, bind (arguments sample_params (map Num [a; b; c; al; be; ga]) []) sample_make = Ok o /\ sample_get "direct" o = Ok (Num 1) /\ sample_get "shape_type" o = Ok (Str "rectangular")) /\
  (forall u tu v tv su sl, bind (arguments gonio_params [u; tu; v; tv; su; sl] []) gonio_make = Ok [u; tu; v; tv; su; sl; Num 0] /\
     bind (arguments gonio_params [u; tu; v; tv] [("sgl", sl); ("sgu", su)]) gonio_make = Ok [u; tu; v; tv; su; sl; Num 0]) /\
  (forall e, instr_make [] [("engine", Str e)] = Ok (mkInstr (Tas true) (Some (Num (147 / 10)))) <-> e = "takin") /\
  instr_make [] [] = Ok (mkInstr (Tas false) (Some (Num (147 / 10)))) /\
  instr_make [] [("instrument_type", Str "tof")] = Ok (mkInstr (Tof false) (Some (Num 3))).
Proof.
  split; [|split]; [| |repeat split].
  - intros t m o H. change (mono_init CMonochromator t m (Num (-1)) NoneV NoneV NoneV NoneV NoneV NoneV = Ok o) in H. unfold mono_init in H. destruct (spacing CMonochromator (tau_of t)); [injection H as <-; reflexivity|discriminate].
  - intros t m o H. change (ana_init CAnalyzer t m (Num (-1)) NoneV NoneV NoneV NoneV NoneV NoneV (Num (-1)) NoneV NoneV = Ok o) in H. unfold ana_init, mono_init in H. destruct (spacing CAnalyzer (tau_of t)); [injection H as <-; split; reflexivity|discriminate].
  - intros. eexists. split; [reflexivity|]. split; reflexivity.
  - unfold instr_make, kind_of. cbn [lookup find]. cbn. destruct (String.eqb e "neutronpy") eqn:E1; [intros H; discriminate|]. destruct (String.eqb e "takin") eqn:E2; [intros _; apply String.eqb_eq; exact E2|discriminate].
  - intros ->. reflexivity.
Qed.
Print Assumptions C101_defaults.

(** ** Space groups *)
(** The text of a space group makes that group. *)
Theorem C101_space_group : forall a g, SymModel.space_group a = Ok g -> SymModel.space_group (SymModel.SInt (SymModel.g_number g)) = Ok g.
Proof.
  intros a g H.
  assert (Dec : forall e, {SymGroup.denotes a e} + {~ SymGroup.denotes a e}).
  { intros e. unfold SymGroup.denotes. destruct a as [n|s|]; [apply Z.eq_dec|apply In_dec, string_dec|right; tauto]. }
  destruct (Exists_dec (SymGroup.denotes a) SymData.table Dec) as [E|E].
  - apply Exists_exists in E. destruct E as (e & I & D). destruct (SymProps.C29_any_name e I) as (g' & A1 & _ & _ & _ & _ & A2 & _).
    assert (S := SymProps.C29_assign_known g' a e I D). 
    destruct (SymGroup.named_group None a e I D) as (gens & ops & B & G1 & O1 & _). destruct (SymGroup.named_group None (SymModel.SInt (SymData.e_number e)) e I eq_refl) as (gens2 & ops2 & B2 & G2 & O2 & _).
    assert (gens2 = gens) by congruence. subst. assert (ops2 = ops) by congruence. subst. unfold SymModel.space_group in *. rewrite B in H. injection H as <-. exact B2.
  - rewrite (SymProps.C29_unknown a) in H; [discriminate|]. intros e I D. apply E, Exists_exists. exists e. auto.
Qed.
Print Assumptions C101_space_group.

(** ** Instruments *)
(** The text of an instrument never makes that instrument, unless the type was tas and the engine one that does not exist. *)
Theorem C101_instrument : forall args kw i, (forall k v, lookup k kw = Some v -> k = "instrument_type" \/ k = "engine" -> exists s, v = Str s) -> instr_make args kw = Ok i -> i_energy i <> Some (Str "tas") ->
  (instr_run (instr_repr i) = Some (Ok i) <-> exists e, i_kind i = Bare "tas" e).
Proof.
  intros args kw i St M NE. unfold instr_make in M. destruct (kind_of kw) as [t|t|t e] eqn:K.
  - destruct (first_of _ _ _ _ _) as [v|x]; [|discriminate]. cbn [bind] in M. injection M as <-. cbn [i_kind]. split; [|intros [e E]; discriminate]. destruct t; [intros H; exfalso; apply NE; unfold instr_run, instr_repr in H; cbn in H; cbn [i_energy]; congruence|]. destruct v; cbn; intros H; try discriminate. destruct l as [|a [|b l]]; discriminate.
  - destruct t; [injection M as <-; split; [discriminate|intros [e E]; discriminate]|]. destruct (first_of _ _ _ _ _) as [v|x]; [|discriminate]. cbn [bind] in M. destruct v; try discriminate. injection M as <-. split; [discriminate|intros [e E]; discriminate].
  - injection M as <-. cbn [i_kind]. split.
    + unfold instr_run, instr_repr. cbn [i_kind c_args c_named read_all read_named read]. intros H. injection H as H. unfold instr_make in H. 
      destruct (kind_of [("engine", Str e)]) as [u|u|t' e'] eqn:K'; cbn in H; [discriminate|destruct u; discriminate|]. injection H as -> ->. unfold kind_of in K'. cbn in K'. exists e.
      destruct (String.eqb e "neutronpy"); [discriminate|]. destruct (String.eqb e "takin"); [discriminate|]. injection K' as <-. reflexivity.
    + intros [e' E]. injection E as -> ->. unfold instr_run, instr_repr. cbn [i_kind c_args c_named read_all read_named read]. unfold instr_make.
      assert (Q : kind_of [("engine", Str e')] = Bare "tas" e'); [|rewrite Q; reflexivity].
      unfold kind_of in K |- *. cbn [lookup find option_map snd fst String.eqb Ascii.eqb Bool.eqb].
      destruct (match lookup "instrument_type" kw with Some v => v | None => Str "tas" end) as [|x|s|l] eqn:T; try discriminate.
      destruct (match lookup "engine" kw with Some v => v | None => Str "neutronpy" end) as [|x|r|l] eqn:E; try discriminate.
      destruct (String.eqb_spec s "tas"); [|destruct (String.eqb_spec s "tof"); [|congruence]]; destruct (String.eqb r "neutronpy") eqn:E1; try discriminate; destruct (String.eqb r "takin") eqn:E2; try discriminate; injection K as K1 K2; subst; try discriminate; unfold lookup; cbn; rewrite E1, E2; reflexivity.
Qed.
Print Assumptions C101_instrument.
(** With the Takin engine it makes a triple-axis instrument whose fixed energy is the text tas or tof. *)
Theorem C101_takin : forall i, (i_kind i = Tas true -> instr_run (instr_repr i) = Some (Ok (mkInstr (Tas true) (Some (Str "tas"))))) /\
  (i_kind i = Tof true -> instr_run (instr_repr i) = Some (Ok (mkInstr (Tas true) (Some (Str "tof"))))).
Proof. intros [k e]. cbn [i_kind]. split; intros ->; reflexivity. Qed.
Print Assumptions C101_takin.

(** The text of a time-of-flight instrument is no Python. *)
Theorem C101_time_of_flight : forall i, i_kind i = Tof false -> instr_run (instr_repr i) = None.
Proof. intros [k e]. cbn [i_kind]. intros ->. reflexivity. Qed.
Print Assumptions C101_time_of_flight.

(** ** Examples *)
Example C101_crystal_example : exists o t d, mono_init CMonochromator (Num 2) (Num 25) (Num 1) NoneV (Num 10) NoneV NoneV NoneV NoneV = Ok o /\
  mono_get "tau" o = Ok (Num t) /\ numeric (mono_get "mosaic" o) /\ numeric (mono_get "direct" o) /\ (forall k, In k sizes -> numeric (mono_get k o) \/ absent (mono_get k o)) /\ mono_get "d" o = Ok (Num d) /\ spacing CMonochromator (TNum t) = Ok d.
Proof.
  unfold mono_init, spacing, get_tau, tau_of. cbn [bind]. destruct (Req_EM_T 2 0) as [E|E]; [lra|]. cbn [bind]. do 3 eexists. split; [reflexivity|]. split; [reflexivity|].
  split; [eexists; reflexivity|]. split; [eexists; reflexivity|]. split; [|split; [reflexivity|]]. 
  - intros k K. inlist K; first [right; reflexivity|left; eexists; reflexivity].
  - destruct (Req_EM_T 2 0) as [E'|E']; [lra|]. reflexivity.
Qed.
Example C101_analyzer_example : exists o t d, ana_init CAnalyzer (Num 2) (Num 25) (Num 1) NoneV NoneV NoneV NoneV NoneV NoneV (Num 1) NoneV (Num 5) = Ok o /\
  mono_get "tau" o = Ok (Num t) /\ numeric (mono_get "mosaic" o) /\ numeric (mono_get "direct" o) /\ numeric (mono_get "horifoc" o) /\ (forall k, In k ("thickness" :: "Q" :: sizes) -> numeric (mono_get k o) \/ absent (mono_get k o)) /\ mono_get "d" o = Ok (Num d) /\ spacing CAnalyzer (TNum t) = Ok d.
Proof.
  unfold ana_init, mono_init, spacing, get_tau, tau_of. cbn [bind]. destruct (Req_EM_T 2 0) as [E|E]; [lra|]. cbn [bind]. do 3 eexists. split; [reflexivity|]. split; [reflexivity|].
  split; [eexists; reflexivity|]. split; [eexists; reflexivity|]. split; [eexists; reflexivity|]. split; [|split; [reflexivity|]].
  - intros k K. inlist K; first [right; reflexivity|left; eexists; reflexivity].
  - destruct (Req_EM_T 2 0) as [E'|E']; [lra|]. reflexivity.
Qed.
Example C101_named_example : exists o c, mono_get "tau" o = Ok (Str "PG(002)") /\ mono_repr o = Ok c.
Proof. exists [("_tau", Str "PG(002)"); ("mosaic", Num 25)]. eexists. split; reflexivity. Qed.
Example C101_sample_example : let o := sample_init 6 6 6 90 90 90 NoneV NoneV (Num 30) NoneV (Num 1) NoneV (Num 2) NoneV (Str "cylindrical") (Num 350) in
  (forall k, In k ["a"; "b"; "c"; "alpha"; "beta"; "gamma"; "direct"] -> numeric (sample_get k o)) /\ (forall k, In k ["u"; "v"; "shape"] -> absent (sample_get k o)) /\
  (forall k, In k ["mosaic"; "vmosaic"; "width"; "height"; "depth"] -> numeric (sample_get k o) \/ absent (sample_get k o)) /\
  sample_get "shape_type" o = Ok (Str "cylindrical") /\ sample_get "distance" o = Ok (Num 350).
Proof.
  cbv zeta. split; [|split; [|split; [|split; reflexivity]]]; intros k K; inlist K; first [reflexivity|eexists; reflexivity|right; reflexivity|left; eexists; reflexivity].
Qed.
Example C101_oriented_example : let o := sample_init 6 6 6 90 90 90 (Vec [1; 0; 0]%R) (Vec [0; 1; 0]%R) NoneV NoneV (Num 1) NoneV NoneV NoneV (Str "rectangular") NoneV in
  sample_get "u" o = Ok (Vec [1; 0; 0]%R) /\ exists c, sample_repr o = Ok c.
Proof. cbv zeta. split; [reflexivity|]. eexists. reflexivity. Qed.
Example C101_goniometer_example : exists ts, map plain [Vec [1; 0; 0]%R; Num 0; Vec [0; 1; 0]%R; Num 90; Num 0; Num 0; Num 0] = map Some ts.
Proof. eexists [_; _; _; _; _; _; _]. reflexivity. Qed.
Example C101_instrument_example : exists i, instr_make [Num 5] [("engine", Str "neutronpy")] = Ok i /\ i_energy i <> Some (Str "tas") /\ instr_run (instr_repr i) = Some (Err TypeError).
Proof. eexists. split; [reflexivity|]. split; [discriminate|reflexivity]. Qed.

(** Fitting (C39, C60). *)
From Coq Require Import String List ZArith Reals Decimal DecimalString DecimalNat Lia Lra Bool.
From Verif Require Import Base FitModel.
Import ListNotations.
Local Open Scope R_scope.

(** ** What the caller asked for, by index *)
Definition nth_info (inf : list (option info)) (i : nat) : option info := nth i inf None.
Definition free (inf : list (option info)) (i : nat) : bool := match nth_info inf i with Some x => match i_fixed x with Some true => false | _ => true end | None => true end.
Definition bound (j : nat) (inf : list (option info)) (i : nat) : option R := match nth_info inf i with Some x => match i_limits x with Some (Some l) => nth j l None | _ => None end | None => None end.
(** Number of free parameters before index [i]. *)
Definition rank (inf : list (option info)) (i : nat) : nat := List.length (filter (free inf) (seq 0 i)).
(** Entries of parinfo as documented: limits, if present, is a list of (at least) two items. *)
Definition documented (x : option info) : Prop := match x with Some x => match i_limits x with Some (Some (_ :: _ :: _)) | None => True | _ => False end | None => True end.
(** The vector that has the optimiser's choices [t] at the free places, in order, and the starting values elsewhere. *)
Definition filled (l : list R) (inf : list (option info)) (t : nat -> R) (v : list R) : Prop :=
  List.length v = List.length l /\ forall i, (i < List.length l)%nat -> nth i v 0 = if free inf i then t (rank inf i) else nth i l 0.

Lemma name_inj i j : name i = name j -> i = j.
Proof.
  unfold name. cbn. intros E. injection E as E. apply (f_equal NilEmpty.uint_of_string) in E. rewrite !NilEmpty.usu in E. injection E as E. now apply Unsigned.to_uint_inj in E.
Qed.
Lemma name_eqb i j : String.eqb (name i) (name j) = Nat.eqb i j.
Proof. destruct (Nat.eqb_spec i j) as [->|N]; [apply String.eqb_refl|]. apply String.eqb_neq. intros E. now apply name_inj in E. Qed.
Arguments name : simpl never.
Definition spec (p0 : R) (x : option info) : param :=
  mkParam p0 (match x with Some x => match i_fixed x with Some true => false | _ => true end | None => true end)
    (match x with Some x => match i_limits x with Some (Some l) => nth 0 l None | _ => None end | None => None end)
    (match x with Some x => match i_limits x with Some (Some l) => nth 1 l None | _ => None end | None => None end).
Fixpoint build (i : nat) (z : list (R * option info)) : params := match z with [] => [] | (p0, x) :: r => (name i, spec p0 x) :: build (S i) r end.
Definition below_names (n : nat) (l : params) : Prop := forall q, In q l -> exists j, (j < n)%nat /\ fst q = name j.
Lemma put_end n l p : below_names n l -> put (name n) p l = l ++ [(name n, p)].
Proof.
  induction l as [|[k q] l IH]; intros B; cbn; auto. destruct (B (k, q) (or_introl eq_refl)) as [j [Lj Ej]]. cbn in Ej. subst k. rewrite name_eqb. destruct (Nat.eqb_spec n j); [lia|]. f_equal. apply IH. intros x I. apply B. now right.
Qed.
Lemma put_again n l p q : below_names n l -> put (name n) p (l ++ [(name n, q)]) = l ++ [(name n, p)].
Proof.
  induction l as [|[k r] l IH]; intros B; cbn; [now rewrite String.eqb_refl|]. destruct (B (k, r) (or_introl eq_refl)) as [j [Lj Ej]]. cbn in Ej. subst k. rewrite name_eqb. destruct (Nat.eqb_spec n j); [lia|]. f_equal. apply IH. intros x I. apply B. now right.
Qed.
Lemma get_end n l q : below_names n l -> get (name n) (l ++ [(name n, q)]) = Ok q.
Proof.
  induction l as [|[k r] l IH]; intros B; cbn; [now rewrite String.eqb_refl|]. destruct (B (k, r) (or_introl eq_refl)) as [j [Lj Ej]]. cbn in Ej. subst k. rewrite name_eqb. destruct (Nat.eqb_spec n j); [lia|]. apply IH. intros x I. apply B. now right.
Qed.
Lemma add_param_spec n l p0 x : below_names n l -> documented x -> add_param l n p0 x = Ok (l ++ [(name n, spec p0 x)]).
Proof.
  intros B Dx. unfold add_param. rewrite put_end by auto. destruct x as [[lim fx]|]; [|reflexivity]. cbn [i_limits i_fixed].
  assert (F : forall lo hi, match fx with None => Ok (l ++ [(name n, mkParam p0 true lo hi)]) | Some b => bind (get (name n) (l ++ [(name n, mkParam p0 true lo hi)])) (fun p => Ok (put (name n) (mkParam (p_value p) (negb b) (p_min p) (p_max p)) (l ++ [(name n, mkParam p0 true lo hi)]))) end
     = Ok (l ++ [(name n, mkParam p0 (match fx with Some true => false | _ => true end) lo hi)])).
  { intros lo hi. destruct fx as [[|]|]; auto; rewrite get_end by auto; cbn [bind p_value p_min p_max negb]; now rewrite put_again. }
  destruct lim as [[[|lo [|hi r]]|]|]; cbn in Dx; try contradiction.
  - cbn [limit nth_error bind]. rewrite get_end by auto. cbn [bind p_value p_vary p_min p_max]. rewrite put_again by auto. rewrite get_end by auto. cbn [bind p_value p_vary p_min p_max]. rewrite put_again by auto. rewrite F. unfold spec. cbn [i_limits i_fixed nth]. destruct lo, hi; reflexivity.
  - cbn [bind]. rewrite F. reflexivity.
Qed.
Lemma add_all_spec z : forall n l, below_names n l -> (forall x, In x z -> documented (snd x)) -> add_all l n z = Ok (l ++ build n z).
Proof.
  induction z as [|[p0 x] z IH]; intros n l B Dz; cbn [add_all build]; [now rewrite app_nil_r|].
  rewrite add_param_spec; auto; [|apply (Dz (p0, x)); now left]. cbn [bind]. rewrite IH.
  - now rewrite <- app_assoc.
  - intros q I. apply in_app_or in I. destruct I as [I|[<-|[]]]; [destruct (B q I) as [j [Lj Ej]]; exists j; split; auto|exists n; split; auto].
  - intros y I. apply Dz. now right.
Qed.
(** Lists of parameters named in order. *)
Definition named (n : nat) (l : params) : Prop := map fst l = map name (seq n (List.length l)).
Lemma named_build z : forall n, named n (build n z).
Proof. unfold named. induction z as [|[p0 x] z IH]; intros n; cbn; auto. now rewrite IH. Qed.
Lemma assign_length l : forall t, List.length (assign t l) = List.length l.
Proof. induction l as [|[k p] l IH]; intros t; cbn; auto. destruct (p_vary p); cbn; now rewrite IH. Qed.
Lemma assign_names l : forall t, map fst (assign t l) = map fst l.
Proof. induction l as [|[k p] l IH]; intros t; cbn; auto. destruct (p_vary p); cbn; now rewrite IH. Qed.
Lemma named_assign l n t : named n l -> named n (assign t l).
Proof. unfold named. now rewrite assign_names, assign_length. Qed.
Lemma get_named l : forall n i, named n l -> (i < List.length l)%nat -> get (name (n + i)) l = Ok (snd (nth i l (EmptyString, mkParam 0 true None None))).
Proof.
  induction l as [|[k p] l IH]; intros n i Nm L; cbn in L; [lia|]. unfold named in Nm. cbn in Nm. injection Nm as Ek Nm. subst k. cbn [get]. rewrite name_eqb. destruct i as [|i].
  - rewrite Nat.add_0_r, Nat.eqb_refl. reflexivity.
  - destruct (Nat.eqb_spec (n + S i) n); [lia|]. rewrite <- Nat.add_succ_comm. rewrite (IH (S n) i); auto. lia.
Qed.
Lemma map_res_ok {A B} (f : A -> res B) (g : A -> B) l : (forall x, In x l -> f x = Ok (g x)) -> map_res f l = Ok (map g l).
Proof. induction l as [|x l IH]; intros E; cbn; auto. rewrite (E x) by now left. rewrite IH; auto. intros; apply E; now right. Qed.
Lemma map_nth_seq {A B} (f : A -> B) d (l : list A) : map (fun i => f (nth i l d)) (seq 0 (List.length l)) = map f l.
Proof.
  induction l as [|x l IH]; auto. cbn [List.length seq map]. f_equal. rewrite <- seq_shift, map_map. exact IH.
Qed.
Lemma values_named l : named 0 l -> values l = Ok (map (fun q => p_value (snd q)) l).
Proof.
  intros Nm. unfold values. rewrite (map_res_ok _ (fun i => p_value (snd (nth i l (EmptyString, mkParam 0 true None None))))).
  - now rewrite (map_nth_seq (fun q => p_value (snd q))).
  - intros i I. apply in_seq in I. assert (G := get_named l 0 i Nm ltac:(lia)). cbn [Nat.add] in G. rewrite G. reflexivity.
Qed.
Lemma free_cons x inf i : free (x :: inf) (S i) = free inf i. Proof. reflexivity. Qed.
Lemma rank_cons x inf i : rank (x :: inf) (S i) = ((if free (x :: inf) 0 then 1 else 0) + rank inf i)%nat.
Proof.
  unfold rank. cbn [seq filter]. rewrite <- seq_shift. assert (E : List.length (filter (free (x :: inf)) (map S (seq 0 i))) = List.length (filter (free inf) (seq 0 i))).
  { generalize (seq 0 i). intros s. induction s as [|j s IH]; cbn [map filter]; auto. rewrite free_cons. destruct (free inf j); cbn; now rewrite IH. }
  destruct (free (x :: inf) 0); cbn [List.length]; rewrite E; reflexivity.
Qed.
Lemma assign_filled l : forall inf n t, List.length l = List.length inf -> filled l inf t (map (fun q => p_value (snd q)) (assign t (build n (combine l inf)))).
Proof.
  induction l as [|p0 l IH]; intros [|x inf] n t L; cbn in L; try lia.
  - split; [reflexivity|]. cbn. intros; lia.
  - cbn [combine build assign]. assert (E : p_vary (spec p0 x) = free (x :: inf) 0) by (destruct x as [[lim [[|]|]]|]; reflexivity). rewrite E. destruct (free (x :: inf) 0) eqn:Fr.
    + destruct (IH inf (S n) (fun j => t (S j)) ltac:(lia)) as [Hl Hn]. split; [cbn; now rewrite Hl|]. intros [|i] Li; cbn [map nth snd p_value].
      * now rewrite Fr.
      * rewrite Hn by (cbn in Li; lia). rewrite free_cons, rank_cons, Fr. reflexivity.
    + destruct (IH inf (S n) t ltac:(lia)) as [Hl Hn]. split; [cbn; now rewrite Hl|]. intros [|i] Li; cbn [map nth snd p_value].
      * now rewrite Fr.
      * rewrite Hn by (cbn in Li; lia). rewrite free_cons, rank_cons, Fr. reflexivity.
Qed.
Lemma build_length z : forall n, List.length (build n z) = List.length z.
Proof. induction z as [|[p0 x] z IH]; intros n; cbn; auto. Qed.
Lemma build_nth l : forall inf n i d, List.length l = List.length inf -> (i < List.length l)%nat -> nth i (build n (combine l inf)) d = (name (n + i), mkParam (nth i l 0) (free inf i) (bound 0 inf i) (bound 1 inf i)).
Proof.
  induction l as [|p0 l IH]; intros [|x inf] n i d L Li; cbn in L, Li; try lia. cbn [combine build]. destruct i as [|i].
  - rewrite Nat.add_0_r. cbn [nth]. reflexivity.
  - cbn [nth]. rewrite IH by lia. rewrite <- Nat.add_succ_comm. reflexivity.
Qed.
Lemma build_all_fixed l : forall inf n, List.length l = List.length inf -> forallb (fun q => negb (p_vary (snd q))) (build n (combine l inf)) = true <-> forall i, (i < List.length l)%nat -> free inf i = false.
Proof.
  intros inf n L. rewrite forallb_forall. split.
  - intros H i Li. assert (E := build_nth l inf n i (EmptyString, mkParam 0 true None None) L Li). assert (I : In (nth i (build n (combine l inf)) (EmptyString, mkParam 0 true None None)) (build n (combine l inf))) by (apply nth_In; rewrite build_length, combine_length; lia).
    apply H in I. rewrite E in I. cbn in I. now destruct (free inf i).
  - intros H q I. apply (In_nth _ _ (EmptyString, mkParam 0 true None None)) in I. destruct I as [i [Li E]]. rewrite build_length, combine_length in Li. rewrite build_nth in E by lia. subst q. cbn. rewrite H; auto; lia.
Qed.
Lemma build_vary l : forall inf n, List.length l = List.length inf -> List.length (filter (fun q => p_vary (snd q)) (build n (combine l inf))) = rank inf (List.length l).
Proof.
  induction l as [|p0 l IH]; intros [|x inf] n L; cbn in L; try lia; auto. cbn [combine build filter List.length]. rewrite rank_cons. assert (E : p_vary (snd (name n, spec p0 x)) = free (x :: inf) 0) by (destruct x as [[lim [[|]|]]|]; reflexivity). rewrite E.
  destruct (free (x :: inf) 0); cbn [List.length]; rewrite IH; auto; lia.
Qed.

(** parinfo in force: the given list, or no constraints. *)
Definition in_force {D} (f : fitter D) (l : list R) (inf : list (option info)) : Prop := f_parinfo f = Some inf \/ f_parinfo f = None /\ inf = repeat None (List.length l).

(** C39.  Whatever the optimiser does: it starts from params0 with each parameter's own limits and free/fixed mark; the residual
    function is called with params0 and then with full vectors having the starting values at the fixed places; the reported
    parameters have the optimiser's final values at the free places, in order, and the starting values at the fixed ones. *)
Theorem C39_fit : forall D (o : optimiser) (f : fitter D) d a l inf, f_data f = Some d -> a = AList l \/ a = AArray l -> in_force f l inf -> List.length inf = List.length l -> Forall documented inf ->
  (exists i, (i < List.length l)%nat /\ free inf i = true) ->
  exists p f' tr r, List.length p = List.length l /\
    (forall i, (i < List.length l)%nat -> get (name i) p = Ok (mkParam (nth i l 0) (free inf i) (bound 0 inf i) (bound 1 inf i))) /\
    fit o f a = (f', l :: tr, Ok (u_success (o p))) /\ Forall2 (filled l inf) (u_trials (o p)) tr /\
    f_result f' = Some r /\ filled l inf (u_final (o p)) (o_params r).
Proof.
  intros D o f d a l inf Hd Ha Hf Hl Hdoc [i0 [Li0 Fi0]]. set (p := build 0 (combine l inf)). assert (Nm := named_build (combine l inf) 0). fold p in Nm.
  assert (Add : add_all [] 0 (combine l inf) = Ok p). { rewrite add_all_spec; auto; [intros q []|]. intros [x y] I. apply in_combine_r in I. rewrite Forall_forall in Hdoc. now apply Hdoc. }
  assert (NF : forallb (fun q => negb (p_vary (snd q))) p = false). { destruct (forallb _ p) eqn:E; auto. unfold p in E. rewrite (build_all_fixed l inf 0) in E by auto. rewrite E in Fi0 by auto. discriminate. }
  assert (V : forall t, values (assign t p) = Ok (map (fun q => p_value (snd q)) (assign t p))) by (intros; apply values_named, named_assign, Nm).
  assert (Tr : map_res (fun t => values (assign t p)) (u_trials (o p)) = Ok (map (fun t => map (fun q => p_value (snd q)) (assign t p)) (u_trials (o p)))) by (apply map_res_ok; intros; apply V).
  assert (Core : forall f', f_data f' = Some d -> exists r, fit_core o f' a inf = (l :: map (fun t => map (fun q => p_value (snd q)) (assign t p)) (u_trials (o p)), Ok (r, u_success (o p))) /\ o_params r = map (fun q => p_value (snd q)) (assign (u_final (o p)) p)).
  { intros f' Hd'. unfold fit_core. assert (Ea : entries a = l) by (destruct Ha; subst a; reflexivity). rewrite Ea, Add, NF, Hd', Tr, V. destruct Ha; subst a; eexists; split; reflexivity. }
  assert (Fil : forall t, filled l inf t (map (fun q => p_value (snd q)) (assign t p))) by (intros; apply assign_filled; lia).
  exists p. unfold fit.
  assert (S0 : set_params0 f a = Ok (mkFitter (f_data f) (Some a) (f_parinfo f) (f_result f))) by (destruct Ha; subst a; reflexivity). rewrite S0. cbn [f_params0 f_parinfo f_data f_result].
  assert (Ea : entries a = l) by (destruct Ha; subst a; reflexivity). rewrite Ea.
  destruct (Core (mkFitter (f_data f) (Some a) (Some inf) (f_result f)) Hd) as [r [Er Ep]].
  exists (mkFitter (f_data f) (Some a) (Some inf) (Some r)), (map (fun t => map (fun q => p_value (snd q)) (assign t p)) (u_trials (o p))), r.
  split; [unfold p; rewrite build_length, combine_length; lia|]. split.
  { intros i Li. assert (G := get_named p 0 i Nm). cbn [Nat.add] in G. rewrite G by (unfold p; rewrite build_length, combine_length; lia). unfold p. rewrite build_nth; auto. }
  split; [|split; [|split]].
  - destruct Hf as [Hf|[Hf Hi]]; rewrite Hf; [rewrite Hl, Nat.eqb_refl|rewrite <- Hi]; rewrite Er; reflexivity.
  - generalize (u_trials (o p)). intros ts. induction ts as [|t ts IH]; cbn [map]; constructor; auto.
  - reflexivity.
  - rewrite Ep. apply Fil.
Qed.
Print Assumptions C39_fit.
Example C39_fit_ex : forall o : optimiser, exists f' tr r, fit o (mkFitter (Some tt) None (Some [None; Some (mkInfo None (Some true)); Some (mkInfo (Some (Some [Some 0; None])) None)]) None) (AList [1; 2; 3]) = (f', tr, Ok (u_success r)).
Proof.
  intros o. destruct (C39_fit unit o (mkFitter (Some tt) None (Some [None; Some (mkInfo None (Some true)); Some (mkInfo (Some (Some [Some 0; None])) None)]) None) tt (AList [1; 2; 3]) [1; 2; 3] [None; Some (mkInfo None (Some true)); Some (mkInfo (Some (Some [Some 0; None])) None)]) as [p [f' [tr [r [_ [_ [E _]]]]]]]; auto.
  - now left.
  - repeat constructor.
  - exists 0%nat. split; [cbn; lia|reflexivity].
  - exists f', (  [1; 2; 3] :: tr), (o p). exact E.
Qed.
(** C39.  All fixed (or no parameters at all) is rejected before the residual function is ever called. *)
Theorem C39_all_fixed : forall D (o : optimiser) (f : fitter D) a l inf, a = AList l \/ a = AArray l \/ a = ATuple l -> in_force f l inf -> List.length inf = List.length l -> Forall documented inf ->
  (forall i, (i < List.length l)%nat -> free inf i = false) -> exists f', fit o f a = (f', [], Err GenericException) /\ f_result f' = f_result f.
Proof.
  intros D o f a l inf Ha Hf Hl Hdoc Fx. assert (Ea : entries a = l) by (destruct Ha as [Ha|[Ha|Ha]]; subst a; reflexivity).
  assert (S0 : set_params0 f a = Ok (mkFitter (f_data f) (Some a) (f_parinfo f) (f_result f))) by (destruct Ha as [Ha|[Ha|Ha]]; subst a; reflexivity).
  assert (Add : add_all [] 0 (combine l inf) = Ok (build 0 (combine l inf))). { rewrite add_all_spec; auto; [intros q []|]. intros [x y] I. apply in_combine_r in I. rewrite Forall_forall in Hdoc. now apply Hdoc. }
  assert (AF : forallb (fun q => negb (p_vary (snd q))) (build 0 (combine l inf)) = true) by (apply build_all_fixed; auto).
  unfold fit. rewrite S0. cbn [f_params0 f_parinfo f_data f_result]. rewrite Ea. unfold fit_core. rewrite Ea.
  destruct Hf as [Hf|[Hf Hi]]; rewrite Hf; [rewrite Hl, Nat.eqb_refl|rewrite <- Hi]; rewrite Add, AF; eexists; split; reflexivity.
Qed.
Print Assumptions C39_all_fixed.
(** C39.  Other rejected arguments.  The residual function is not called and the previous result stays. *)
Theorem C39_rejects : forall D (o : optimiser) (f : fitter D) l inf,
  fit o f AOther = (f, [], Err ValueError) /\ (exists f', fit o f ANone = (f', [], Err TypeError) /\ f_result f' = f_result f) /\
  (f_parinfo f = Some inf -> List.length inf <> List.length l -> exists f', fit o f (AList l) = (f', [], Err AssertionError) /\ f_result f' = f_result f /\ f_params0 f' = Some (AList l)).
Proof.
  intros D o f l inf. split; [reflexivity|]. split.
  - unfold fit. cbn. destruct (f_parinfo f); eexists; split; reflexivity.
  - intros E N. unfold fit. cbn [set_params0 f_params0 f_parinfo entries f_data f_result]. rewrite E. destruct (Nat.eqb_spec (List.length l) (List.length inf)); [lia|]. eexists. repeat split.
Qed.
Print Assumptions C39_rejects.

(** What is raised for a value of 'limits' that is not a list of two. *)
Definition complaint (lim : option (list (option R))) : option exn := match lim with None => Some TypeError | Some (_ :: _ :: _) => None | Some _ => Some IndexError end.
Lemma add_all_stop p0 lim fx e z2 : complaint lim = Some e -> forall z n l, below_names n l -> (forall x, In x z -> documented (snd x)) -> add_all l n (z ++ (p0, Some (mkInfo (Some lim) fx)) :: z2) = Err e.
Proof.
  intros C. induction z as [|[q x] z IH]; intros n l B Dz; cbn [Datatypes.app add_all].
  - unfold add_param. cbv beta iota zeta. cbn [i_limits i_fixed]. destruct lim as [[|lo [|hi r]]|]; cbn in C; try discriminate; injection C as <-; cbn [limit nth_error bind]; try reflexivity.
    rewrite put_end, get_end by auto. reflexivity.
  - rewrite add_param_spec; auto; [|apply (Dz (q, x)); now left]. cbn [bind]. apply IH; [|intros y I; apply Dz; now right].
    intros y I. apply in_app_or in I. destruct I as [I|[<-|[]]]; [destruct (B y I) as [j [Lj Ej]]; exists j; split; auto|exists n; split; auto].
Qed.
(** C39.  The first entry of parinfo with limits None raises TypeError, with less than two limits IndexError (more than two are accepted);
    the residual function is not called and the previous result stays. *)
Theorem C39_limits : forall D (o : optimiser) (f : fitter D) a l pre lim fx post, a = AList l \/ a = AArray l -> f_parinfo f = Some (pre ++ Some (mkInfo (Some lim) fx) :: post) ->
  List.length l = List.length (pre ++ Some (mkInfo (Some lim) fx) :: post) -> Forall documented pre ->
  (lim = None -> exists f', fit o f a = (f', [], Err TypeError) /\ f_result f' = f_result f) /\
  (forall v, lim = Some v -> (List.length v < 2)%nat -> exists f', fit o f a = (f', [], Err IndexError) /\ f_result f' = f_result f).
Proof.
  intros D o f a l pre lim fx post Ha E L Dp.
  assert (K : forall e, complaint lim = Some e -> exists f', fit o f a = (f', [], Err e) /\ f_result f' = f_result f).
  { intros e C. rewrite app_length in L. cbn in L. assert (Z : exists z p0 z2, combine l (pre ++ Some (mkInfo (Some lim) fx) :: post) = z ++ (p0, Some (mkInfo (Some lim) fx)) :: z2 /\ forall x, In x z -> documented (snd x)).
    { clear E Ha. revert l L. induction pre as [|x pre IH]; intros [|p0 l] L; cbn in L; try lia; [exists [], p0, (combine l post); split; [reflexivity|intros x []]|].
      inversion Dp as [|? ? D1 D2]; subst. destruct (IH D2 l) as (z & q & z2 & Ez & Dz); [lia|]. exists ((p0, x) :: z), q, z2. split; [cbn; rewrite Ez; reflexivity|]. intros y [<-|I]; [exact D1|apply Dz, I]. }
    destruct Z as (z & p0 & z2 & Ez & Dz). assert (Ad := add_all_stop p0 lim fx e z2 C z 0 [] ltac:(intros q []) Dz). rewrite <- Ez in Ad.
    assert (Lf : Nat.eqb (List.length l) (List.length (pre ++ Some (mkInfo (Some lim) fx) :: post)) = true) by (apply Nat.eqb_eq; rewrite app_length; exact L).
    unfold fit. destruct Ha as [-> | ->]; cbn [set_params0 f_params0 f_parinfo entries f_data f_result]; rewrite E; rewrite Lf; unfold fit_core; cbn [entries]; rewrite Ad; eexists; split; reflexivity. }
  split; [intros ->; apply K; reflexivity|]. intros v -> Lv. apply K. destruct v as [|x [|y v]]; cbn in *; [reflexivity|reflexivity|lia].
Qed.
Print Assumptions C39_limits.
Example C39_limits_ex : forall o : optimiser, exists f', fit o (mkFitter (Some tt) None (Some [None; Some (mkInfo (Some (Some [Some 0])) None)]) None) (AList [1; 2]) = (f', [], Err IndexError) /\ f_result f' = None.
Proof. intros o. destruct (C39_limits unit o (mkFitter (Some tt) None (Some [None; Some (mkInfo (Some (Some [Some 0])) None)]) None) (AList [1; 2]) [1; 2] [None] (Some [Some 0]) None [] (or_introl eq_refl) eq_refl eq_refl (Forall_cons None I (Forall_nil _))) as [_ H]. apply (H [Some 0] eq_refl). cbn. lia. Qed.

(** ** The object over several fits (C60) *)
Lemma fit_result D (o : optimiser) (f : fitter D) a f' tr s : fit o f a = (f', tr, Ok s) -> exists p r inf, f_result f' = Some r /\ f_data f' = f_data f /\ f_parinfo f' = Some inf /\ in_force f (entries a) inf /\ f_params0 f' = Some a /\ List.length inf = List.length (entries a) /\
  add_all [] 0 (combine (entries a) inf) = Ok p /\ o_nfree r = (Z.of_nat (u_ndata (o p)) - Z.of_nat (List.length (filter (fun q => p_vary (snd q)) p)))%Z /\ o_ndata r = Z.of_nat (u_ndata (o p)) /\
  o_redchi r = u_chisqr (o p) / IZR (Z.max 1 (o_nfree r)) /\ o_covar_diag r = map (fun j => o_redchi r * u_var (o p) j) (seq 0 (List.length (filter (fun q => p_vary (snd q)) p))).
Proof.
  unfold fit. intros H. destruct (set_params0 f a) as [f1|e] eqn:S0; [|discriminate]. destruct (f_params0 f1) as [b|] eqn:P1; [|destruct (f_parinfo f1); discriminate].
  assert (S1 : f1 = mkFitter (f_data f) (Some a) (f_parinfo f) (f_result f)) by (destruct a; cbn in S0; inversion S0; subst f1; cbn in P1; congruence). subst f1. cbn in P1. injection P1 as <-. cbn [f_data f_params0 f_parinfo f_result] in H.
  assert (Go : forall inf, in_force f (entries a) inf -> List.length inf = List.length (entries a) -> (match fit_core o (mkFitter (f_data f) (Some a) (Some inf) (f_result f)) a inf with (tr0, Ok (r, s0)) => (mkFitter (f_data f) (Some a) (Some inf) (Some r), tr0, Ok s0) | (tr0, Err e) => (mkFitter (f_data f) (Some a) (Some inf) (f_result f), tr0, Err e) end) = (f', tr, Ok s) ->
     exists p r inf, f_result f' = Some r /\ f_data f' = f_data f /\ f_parinfo f' = Some inf /\ in_force f (entries a) inf /\ f_params0 f' = Some a /\ List.length inf = List.length (entries a) /\
  add_all [] 0 (combine (entries a) inf) = Ok p /\ o_nfree r = (Z.of_nat (u_ndata (o p)) - Z.of_nat (List.length (filter (fun q => p_vary (snd q)) p)))%Z /\ o_ndata r = Z.of_nat (u_ndata (o p)) /\
  o_redchi r = u_chisqr (o p) / IZR (Z.max 1 (o_nfree r)) /\ o_covar_diag r = map (fun j => o_redchi r * u_var (o p) j) (seq 0 (List.length (filter (fun q => p_vary (snd q)) p)))).
  { clear H. intros inf IF L H. unfold fit_core in H. destruct (add_all [] 0 (combine (entries a) inf)) as [p|e] eqn:Ad; [|discriminate]. destruct (forallb (fun q => negb (p_vary (snd q))) p); [discriminate|]. cbn [f_data] in H. destruct (f_data f) as [d|] eqn:Fd; [|discriminate].
    destruct a as [l|l|l| |]; try discriminate.
    - destruct (map_res _ (u_trials (o p))); [|discriminate]. destruct (values (assign (u_final (o p)) p)); [|discriminate]. inversion H; subst. exists p. eexists. exists inf. repeat split; auto.
    - destruct (map_res _ (u_trials (o p))); [|discriminate]. destruct (values (assign (u_final (o p)) p)); [|discriminate]. inversion H; subst. exists p. eexists. exists inf. repeat split; auto. }
  destruct (f_parinfo f) as [inf|] eqn:Pf.
  - destruct (Nat.eqb_spec (List.length (entries a)) (List.length inf)) as [E|]; [|discriminate]. apply (Go inf); auto. now left.
  - apply (Go (repeat None (List.length (entries a)))); auto; [now right|apply repeat_length].
Qed.
(** C60.  Once a fit has finished, calling the object returns that fit's parameters, whatever starting parameters are given and whatever data were assigned since. *)
Theorem C60_call_is_stale : forall D (o o' : optimiser) (f f' : fitter D) a tr s b d, fit o f a = (f', tr, Ok s) -> exists r, f_result f' = Some r /\ call o' (set_data f' d) b = (set_data f' d, [], Ok (o_params r)).
Proof.
  intros D o o' f f' a tr s b d H. apply fit_result in H. destruct H as [p [r [inf [Hr _]]]]. exists r. split; auto. unfold call. assert (E : f_result (set_data f' d) = Some r) by (destruct d; auto). now rewrite E.
Qed.
Print Assumptions C60_call_is_stale.
(** A straight-line fit, then new data and a call with other starting values: the optimiser would now end elsewhere. *)
Definition ends (x : R) : optimiser := fun _ => mkRun [fun _ => x + 1] (fun _ => x) 2 (fun _ => 1) 3 true.
Example C60_call_is_stale_ex : exists f' tr, fit (ends 5) (mkFitter (Some 1%nat) None None None) (AList [1; 2]) = (f', tr, Ok true) /\
  snd (call (ends 7) (set_data f' (DTuple 2%nat)) (AList [3; 4])) = Ok [5; 5].
Proof. eexists _, _. split; [reflexivity|]. reflexivity. Qed.
(** C60.  Without parinfo the first fit fixes the number of parameters: later fits with another number are rejected. *)
Theorem C60_length_is_frozen : forall D (o o' : optimiser) (f f' : fitter D) a tr s l, fit o f a = (f', tr, Ok s) -> List.length l <> List.length (entries a) -> exists f'', fit o' f' (AList l) = (f'', [], Err AssertionError).
Proof.
  intros D o o' f f' a tr s l H N. apply fit_result in H. destruct H as [p [r [inf [Hr [_ [Hi [_ [_ [Li _]]]]]]]]]. destruct (C39_rejects D o' f' l inf) as [_ [_ R]]. destruct (R Hi ltac:(congruence)) as [f'' [E _]]. now exists f''.
Qed.
Print Assumptions C60_length_is_frozen.
Example C60_length_is_frozen_ex : exists f' tr f'' tr', fit (ends 5) (mkFitter (Some tt) None None None) (AList [1; 2]) = (f', tr, Ok true) /\
  fit (ends 5) f' (AList [1; 2; 3]) = (f'', tr', Err AssertionError).
Proof. eexists _, _, _, _. split; reflexivity. Qed.
(** C60.  A tuple of starting parameters is accepted by the object but no fit with it ever succeeds; nor one without tuple data. *)
Theorem C60_never : forall D (o : optimiser) (f : fitter D) a l f' tr r, (a = ATuple l \/ f_data f = None) -> fit o f a = (f', tr, r) -> tr = [] /\ (exists e, r = Err e) /\ f_result f' = f_result f.
Proof.
  intros D o f a l f' tr r Ha H. unfold fit in H. destruct (set_params0 f a) as [f1|e] eqn:S0; [|inversion H; subst; repeat split; eauto].
  assert (S1 : f1 = mkFitter (f_data f) (f_params0 f1) (f_parinfo f) (f_result f)) by (destruct a; cbn in S0; inversion S0; reflexivity).
  destruct (f_params0 f1) as [b|] eqn:P1; [|destruct (f_parinfo f1); inversion H; subst f1; subst; repeat split; eauto].
  assert (Hb : b = a) by (destruct a; cbn in S0; inversion S0; subst f1; cbn in P1; congruence). subst b.
  assert (Core : forall inf, exists e, fit_core o (mkFitter (f_data f1) (Some a) (Some inf) (f_result f1)) a inf = ([], Err e)).
  { intros inf. unfold fit_core. destruct (add_all [] 0 (combine (entries a) inf)) as [p|e]; [|eauto]. destruct (forallb (fun q => negb (p_vary (snd q))) p); [eauto|]. cbn [f_data]. rewrite S1. cbn [f_data]. destruct Ha as [->|Fd]; [destruct (f_data f); eauto|rewrite Fd; eauto]. }
  assert (R1 : f_result f1 = f_result f) by (rewrite S1; reflexivity).
  destruct (f_parinfo f1) as [inf|]; [destruct (Nat.eqb (List.length (entries a)) (List.length inf))|].
  - destruct (Core inf) as [e Ec]. rewrite Ec in H. inversion H; subst. repeat split; eauto.
  - inversion H; subst. repeat split; eauto.
  - destruct (Core (repeat None (List.length (entries a)))) as [e Ec]. rewrite Ec in H. inversion H; subst. repeat split; eauto.
Qed.
Print Assumptions C60_never.
Example C60_never_ex : exists f', fit (ends 5) (mkFitter (Some tt) None None None) (ATuple [1; 2]) = (f', [], Err AttributeError).
Proof. eexists. reflexivity. Qed.
(** C60.  Assigning data that is not a tuple raises nothing and keeps the old data. *)
Theorem C60_data : forall D (f : fitter D) (l : list (dataarg D)) d, fold_left set_data (DTuple d :: l) f = fold_left set_data (DTuple (fold_left (fun d x => match x with DTuple e => e | DOther => d end) l d) :: []) f.
Proof.
  intros D f l. revert f. induction l as [|x l IH]; intros f d; auto. cbn [fold_left]. destruct x as [e|]; cbn [set_data].
  - specialize (IH f e). cbn [fold_left set_data] in IH. cbn [f_params0 f_parinfo f_result]. exact IH.
  - exact (IH f d).
Qed.
Print Assumptions C60_data.
(** C60.  After a fit of n free parameters to m residuals [dof] reports n and [nfree] reports m - n: the two documented meanings are
    exchanged; [stderr] has one entry per free parameter and is the standard error multiplied once more by the square root of the reduced chi squared. *)
Theorem C60_statistics : forall D (o : optimiser) (f f' : fitter D) a inf tr s, fit o f a = (f', tr, Ok s) -> in_force f (entries a) inf -> Forall documented inf -> exists p r,
  let n := rank inf (List.length (entries a)) in let m := Z.of_nat (u_ndata (o p)) in f_result f' = Some r /\
  dof f' = Ok (Z.of_nat n) /\ nfree f' = Ok (m - Z.of_nat n)%Z /\
  (0 <= u_chisqr (o p) -> (forall j, 0 <= u_var (o p) j) -> stderr f' = Ok (map (fun j => sqrt (o_redchi r) * sqrt (o_redchi r * u_var (o p) j)) (seq 0 n))).
Proof.
  intros D o f f' a inf tr s H Hf Hdoc. apply fit_result in H. destruct H as [p [r [inf' [Hr [_ [Hi [If [_ [Li [Ad [Hn [Hm [Hc Hv]]]]]]]]]]]]].
  assert (E : inf' = inf) by (destruct If as [If|[If ->]], Hf as [Hf|[Hf ->]]; congruence). subst inf'. rewrite add_all_spec in Ad; [|intros q []|intros [x y] I; apply in_combine_r in I; rewrite Forall_forall in Hdoc; now apply Hdoc].
  injection Ad as Ep. cbn [app] in Ep. exists p, r. cbv zeta. assert (Nv : List.length (filter (fun q => p_vary (snd q)) p) = rank inf (List.length (entries a))) by (subst p; apply build_vary; auto). rewrite Nv in Hn, Hv.
  split; [exact Hr|]. unfold dof, nfree, stderr. rewrite Hr. cbn [bind]. rewrite Hn, Hm. split; [f_equal; lia|]. split; [reflexivity|].
  intros C0 V0. f_equal. rewrite Hv, map_map. apply map_ext. intros j. assert (R0 : 0 <= o_redchi r). { rewrite Hc. apply Rmult_le_pos; auto. apply Rlt_le, Rinv_0_lt_compat. apply IZR_lt. lia. }
  rewrite (Rmult_comm (o_redchi r * u_var (o p) j)). apply sqrt_mult; auto. apply Rmult_le_pos; auto.
Qed.
Print Assumptions C60_statistics.
Example C60_statistics_ex : exists f' tr, fit (ends 5) (mkFitter (Some tt) None (Some [None; Some (mkInfo None (Some true))]) None) (AList [1; 2]) = (f', tr, Ok true) /\
  dof f' = Ok 1%Z /\ nfree f' = Ok 2%Z.
Proof. eexists _, _. split; [reflexivity|]. split; reflexivity. Qed.
(** C60.  The documented meaning (number of free parameters) is refuted by one free parameter and three residuals. *)
Theorem C60_nfree_refuted : exists (o : optimiser) (f f' : fitter unit) a tr s, fit o f a = (f', tr, Ok s) /\ List.length (entries a) = 1%nat /\ nfree f' = Ok 2%Z /\ dof f' = Ok 1%Z.
Proof.
  exists (fun _ => mkRun [] (fun _ => 5) 2 (fun _ => 1) 3 true), (mkFitter (Some tt) None None None). eexists. exists (AList [1]). eexists _, _. split; [reflexivity|]. repeat split.
Qed.
Print Assumptions C60_nfree_refuted.

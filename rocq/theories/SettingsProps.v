(** C93: the settings of a fitter and what it reports. *)
From Coq Require Import String List ZArith Reals Arith Bool Lia Lra.
From Verif Require Import Base SettingsModel.
Import ListNotations.
Local Open Scope list_scope.

(** Which values a setting takes, and what is read afterwards. *)
Inductive num : py -> Prop := num_b b : num (PBool b) | num_i z : num (PInt z) | num_x x : num (PNum x).
Inductive int : py -> Prop := int_b b : int (PBool b) | int_i z : int (PInt z).
Inductive constraint : py -> Prop := c_none : constraint PNone | c_dict d : constraint (PDict d).
Inductive takes : setting -> py -> py -> Prop :=
| t_eps : takes Epsfcn PNone (PNum (/ 2 ^ 52))
| t_fev : takes Maxfev PNone (PInt 0)
| t_check b : takes Nofinitecheck (PBool b) (PBool b)
| t_nan s : takes Nan_policy (PStr s) (PStr s)
| t_p0_none : takes Params0 PNone PNone
| t_p0_list l : takes Params0 (PList l) (PList l)
| t_p0_tuple l : takes Params0 (PTuple l) (PTuple l)
| t_p0_arr l : takes Params0 (PArr l) (PArr l)
| t_info_none : takes Parinfo PNone PNone
| t_info_list l : Forall constraint l -> takes Parinfo (PList l) (PList l)
| t_info_tuple l : Forall constraint l -> takes Parinfo (PTuple l) (PTuple l)
| t_data l : takes Data (PTuple l) (PTuple l)
| t_deriv v : takes Deriv v v
| t_tol s v : In s [Ftol; Xtol; Gtol; Epsfcn; Stepfactor; Covtol] -> num v -> takes s v v
| t_int s v : In s [Maxiter; Maxfev] -> int v -> takes s v v.
Lemma seq_iff s t : setting_eqb s t = true <-> s = t.
Proof. destruct s, t; cbn; split; congruence. Qed.
Lemma constraints l : forallb (fun i => match i with PNone | PDict _ => true | _ => false end) l = true <-> Forall constraint l.
Proof. rewrite forallb_forall, Forall_forall. split; intros H x I; specialize (H x I); destruct x; try discriminate H; try constructor; inversion H; reflexivity. Qed.
Lemma is_number_iff v : is_number v = true <-> num v. Proof. destruct v; cbn; split; intros H; try discriminate H; try constructor; inversion H. Qed.
Lemma is_int_iff v : is_int v = true <-> int v. Proof. destruct v; cbn; split; intros H; try discriminate H; try constructor; inversion H. Qed.
Lemma judge_takes s v w : judge s v = Keep w <-> takes s v w.
Proof.
  split.
  - destruct s; cbn [judge]; unfold number.
    + destruct v; intros H; try discriminate H; try (injection H as <-; constructor); destruct (forallb _ l) eqn:E; try discriminate H; injection H as <-; constructor; apply constraints, E.
    + destruct v; intros H; try discriminate H; injection H as <-; constructor.
    + destruct v; intros H; try discriminate H; injection H as <-; constructor.
    + intros H. injection H as <-. constructor.
    + destruct (is_number v) eqn:E; intros H; try discriminate H; injection H as <-. apply t_tol; [cbn; tauto|apply is_number_iff, E].
    + destruct (is_number v) eqn:E; intros H; try discriminate H; injection H as <-. apply t_tol; [cbn; tauto|apply is_number_iff, E].
    + destruct (is_number v) eqn:E; intros H; try discriminate H; injection H as <-. apply t_tol; [cbn; tauto|apply is_number_iff, E].
    + destruct v; cbn; intros H; try discriminate H; injection H as <-; try (apply t_tol; [cbn; tauto|constructor]); apply t_eps.
    + destruct (is_number v) eqn:E; intros H; try discriminate H; injection H as <-. apply t_tol; [cbn; tauto|apply is_number_iff, E].
    + destruct (is_number v) eqn:E; intros H; try discriminate H; injection H as <-. apply t_tol; [cbn; tauto|apply is_number_iff, E].
    + destruct (is_int v) eqn:E; intros H; try discriminate H; injection H as <-. apply t_int; [cbn; tauto|apply is_int_iff, E].
    + destruct v; cbn; intros H; try discriminate H; injection H as <-; try (apply t_int; [cbn; tauto|constructor]); apply t_fev.
    + destruct v; intros H; try discriminate H; injection H as <-; constructor.
    + destruct v; intros H; try discriminate H; injection H as <-; constructor.
  - intros []; try reflexivity.
    + cbn [judge]. apply constraints in H. rewrite H. reflexivity.
    + cbn [judge]. apply constraints in H. rewrite H. reflexivity.
    + match goal with H : In _ _ |- _ => cbn in H; destruct H as [<-|[<-|[<-|[<-|[<-|[<-|[]]]]]]] end; destruct H0; reflexivity.
    + match goal with H : In _ _ |- _ => cbn in H; destruct H as [<-|[<-|[]]] end; destruct H0; reflexivity.
Qed.
Lemma judge_not s v : (forall w, ~ takes s v w) -> judge s v = if setting_eqb s Data then Ignore else Refuse.
Proof.
  intros N. destruct (judge s v) eqn:E; [exfalso; apply (N v0), judge_takes, E| |]; destruct s; try reflexivity; exfalso; cbn [judge] in E; unfold number in E; destruct v; cbn in E; try discriminate E; try (destruct (forallb _ l); discriminate E).
Qed.

(** * One assignment *)
Definition kept (f : fitter) (s : setting) : option py := at_ (written s) f.
Lemma kept_store s v f t : kept (store s v f) t = if setting_eqb t s then Some v else kept f t.
Proof. destruct s, t; reflexivity. Qed.
Lemma get_kept s f : s <> Nofinitecheck -> get s f = found (kept f s).
Proof. destruct s; intros N; try reflexivity. contradiction. Qed.
Lemma read_eq q f g : result f = result g -> m_ f = m_ g -> read q f = read q g.
Proof. intros R M. unfold read. rewrite R, M. reflexivity. Qed.
Lemma store_rest s v f : result (store s v f) = result f /\ m_ (store s v f) = m_ f /\ get Nofinitecheck (store s v f) = get Nofinitecheck f.
Proof. destruct s; repeat split. Qed.
Theorem C93_assignment : forall s v f f' r, set s v f = (f', r) ->
  (forall w, takes s v w -> r = Ok tt /\ (s <> Nofinitecheck -> get s f' = Ok w) /\ (forall t, t <> s -> get t f' = get t f) /\ forall q, read q f' = read q f) /\
  ((forall w, ~ takes s v w) -> f' = f /\ r = if setting_eqb s Data then Ok tt else Err ValueError).
Proof.
  intros s v f f' r E. unfold set in E. split.
  - intros w T. apply judge_takes in T. rewrite T in E. injection E as <- <-. split; [reflexivity|]. destruct (store_rest s w f) as (R & M & C). split; [|split; [|intros q; apply read_eq; assumption]].
    + intros N. rewrite get_kept, kept_store by exact N. replace (setting_eqb s s) with true by (symmetry; apply seq_iff; reflexivity). reflexivity.
    + intros t N. destruct (setting_eqb t Nofinitecheck) eqn:Et; [apply seq_iff in Et as ->; exact C|]. rewrite !get_kept, kept_store by (intros ->; discriminate Et). destruct (setting_eqb t s) eqn:Es; [apply seq_iff in Es; contradiction|reflexivity].
  - intros N. rewrite (judge_not s v N) in E. destruct (setting_eqb s Data); injection E as <- <-; split; reflexivity.
Qed.
Print Assumptions C93_assignment.

(** * Histories *)
(** A fit gives the starting values as well. *)
Definition gives (a : act) (s : setting) (w : py) : Prop := match a with Set_ s' v => s' = s /\ takes s v w | Fit _ p0 => s = Params0 /\ takes Params0 p0 w end.
Lemma minimise_kept w p0 info f : kept (fst (minimise w p0 info f)) = kept f.
Proof. unfold minimise. destruct (prepare w p0 info) as [[|]|]; try reflexivity. destruct (get Data f); [|reflexivity]. destruct (first_norm w p0 a); [|reflexivity]. cbv zeta. destruct (bind _ _); reflexivity. Qed.
Lemma fit_kept w p0 f s : s <> Parinfo -> kept (fst (fit w p0 f)) s = kept (fst (set Params0 p0 f)) s.
Proof.
  intros N. unfold fit. destruct (set Params0 p0 f) as [g [[]|e]] eqn:E; cbn [fst]; [|reflexivity].
  destruct (bind (get Params0 g) len) as [n|]; [|reflexivity]. destruct (get Parinfo g) as [info|]; [|reflexivity].
  assert (S : kept (store Parinfo (PList (repeat PNone n)) g) s = kept g s) by (rewrite kept_store; destruct s; try reflexivity; contradiction).
  destruct info; try (destruct (len _) as [m|]; [|reflexivity]; destruct (Nat.eqb n m); [rewrite minimise_kept|]; reflexivity).
  rewrite minimise_kept. exact S.
Qed.
Lemma set_other s v f t : t <> s -> kept (fst (set s v f)) t = kept f t.
Proof. intros N. unfold set. destruct (judge s v); cbn [fst]; try reflexivity. rewrite kept_store. destruct (setting_eqb t s) eqn:E; [apply seq_iff in E; contradiction|reflexivity]. Qed.
Lemma set_same s v f : kept (fst (set s v f)) s = match judge s v with Keep w => Some w | _ => kept f s end.
Proof. unfold set. destruct (judge s v); cbn [fst]; try reflexivity. rewrite kept_store. replace (setting_eqb s s) with true by (symmetry; apply seq_iff; reflexivity). reflexivity. Qed.
Lemma do_gives a f s w : s <> Parinfo -> gives a s w -> kept (do f a) s = Some w.
Proof.
  intros N G. destruct a as [s' v|u p0]; cbn [do].
  - destruct G as [-> T]. rewrite set_same. apply judge_takes in T. rewrite T. reflexivity.
  - destruct G as [-> T]. rewrite fit_kept, set_same by exact N. apply judge_takes in T. rewrite T. reflexivity.
Qed.
Lemma do_not a f s : s <> Parinfo -> (forall w, ~ gives a s w) -> kept (do f a) s = kept f s.
Proof.
  intros N G. destruct a as [s' v|u p0]; cbn [do].
  - destruct (setting_eqb s' s) eqn:E; [apply seq_iff in E as ->|apply set_other; intros ->; assert (setting_eqb s' s' = true) by (apply seq_iff; reflexivity); congruence].
    rewrite set_same. destruct (judge s v) as [w| |] eqn:J; try reflexivity. exfalso. apply (G w). split; [reflexivity|apply judge_takes, J].
  - rewrite fit_kept by exact N. destruct (setting_eqb s Params0) eqn:E; [apply seq_iff in E as ->|apply set_other; intros ->; discriminate E].
    rewrite set_same. destruct (judge Params0 p0) as [w| |] eqn:J; try reflexivity. exfalso. apply (G w). split; [reflexivity|apply judge_takes, J].
Qed.
Lemma not_given acts s : s <> Parinfo -> forall f, Forall (fun a => forall w, ~ gives a s w) acts -> kept (fold_left do acts f) s = kept f s.
Proof. intros N. induction acts as [|a acts IH]; intros f F; [reflexivity|]. inversion F; subst. cbn [fold_left]. rewrite IH by assumption. apply do_not; assumption. Qed.
(** What is read is the last value that was taken, by an assignment or, for the starting values, by a fit. *)
Theorem C93_last_value : forall f before a after s w, s <> Parinfo -> s <> Nofinitecheck -> gives a s w -> Forall (fun a => forall w, ~ gives a s w) after ->
  get s (fold_left do (before ++ a :: after) f) = Ok w.
Proof.
  intros f before a after s w N1 N2 G F. rewrite fold_left_app. cbn [fold_left]. set (g := fold_left do before f). assert (K : kept (fold_left do after (do g a)) s = Some w) by (rewrite not_given by assumption; apply do_gives; assumption).
  rewrite get_kept, K by exact N2. reflexivity.
Qed.
Print Assumptions C93_last_value.

(** * The constructor *)
Lemma set_all_ok l : forall f, Forall (fun e => fst e <> Data -> exists w, takes (fst e) (snd e) w) l -> exists g, set_all l f = Ok g /\ result g = result f /\ get Nofinitecheck g = get Nofinitecheck f /\
  forall s, kept g s = fold_left (fun o e => if setting_eqb s (fst e) then match judge s (snd e) with Keep w => Some w | _ => o end else o) l (kept f s).
Proof.
  induction l as [|[s v] l IH]; intros f F; [exists f; repeat split|]. inversion F as [|? ? H1 H2]; subst. cbn [fst snd] in H1. cbn [set_all].
  assert (exists g, set s v f = (g, Ok tt) /\ result g = result f /\ get Nofinitecheck g = get Nofinitecheck f) as (g & Eg & O & A).
  { unfold set. destruct (judge s v) eqn:J; [eexists; split; [reflexivity|split; apply store_rest]| |eexists; repeat split]. exfalso. destruct (setting_eqb s Data) eqn:E; [apply seq_iff in E as ->; destruct v; discriminate J|].
    destruct H1 as [w T]; [intros ->; discriminate E|]. apply judge_takes in T. congruence. }
  rewrite Eg. destruct (IH g H2) as (k & Ek & Ok' & Ak & K). exists k. split; [exact Ek|]. split; [congruence|]. split; [congruence|]. intros t. rewrite K. cbn [fold_left fst snd]. f_equal.
  assert (g = fst (set s v f)) as -> by (rewrite Eg; reflexivity). destruct (setting_eqb t s) eqn:E; [apply seq_iff in E as ->; apply set_same|]. apply set_other. intros ->. assert (setting_eqb s s = true) by (apply seq_iff; reflexivity). congruence.
Qed.
Lemma set_all_err l : forall f, (exists s v, In (s, v) l /\ s <> Data /\ forall w, ~ takes s v w) -> set_all l f = Err ValueError.
Proof.
  induction l as [|[s v] l IH]; intros f (s' & v' & I & Nd & N); [contradiction|]. cbn [set_all]. unfold set. destruct (judge s v) as [w| |] eqn:J; [| reflexivity|].
  - destruct I as [E|I]; [injection E as -> ->; exfalso; apply (N w), judge_takes, J|]. apply IH. eauto.
  - destruct I as [E|I]; [injection E as -> ->; rewrite (judge_not _ _ N) in J; destruct s'; try discriminate J; contradiction|]. apply IH. eauto.
Qed.
Lemma given_once a s v : In (s, v) (given a) -> forall o, fold_left (fun o e => if setting_eqb s (fst e) then match judge s (snd e) with Keep w => Some w | _ => o end else o) (given a) o = match judge s v with Keep w => Some w | _ => o end.
Proof. intros I o. cbn in I. destruct I as [E|[E|[E|[E|[E|[E|[E|[E|[E|[E|[E|[E|[E|[E|[]]]]]]]]]]]]]]]; injection E as <- <-; reflexivity. Qed.
(** A fitter is made exactly if every argument besides the data is of a kind the setting takes, and shows them; data other than a tuple is as if it were missing. *)
Theorem C93_constructor : forall a,
  ((forall s v, In (s, v) (given a) -> s <> Data -> exists w, takes s v w) -> exists f, new a = Ok f /\
     (forall s v w, In (s, v) (given a) -> s <> Nofinitecheck -> takes s v w -> get s f = Ok w) /\
     ((forall w, ~ takes Data (g_data a) w) -> get Data f = Err AttributeError) /\ (forall q, read q f = Err AttributeError)) /\
  ((exists s v, In (s, v) (given a) /\ s <> Data /\ forall w, ~ takes s v w) -> new a = Err ValueError).
Proof.
  intros a. split; [|intros H; apply set_all_err, H].
  intros H. assert (F : Forall (fun e => fst e <> Data -> exists w, takes (fst e) (snd e) w) (given a)) by (apply Forall_forall; intros [s v] I N; apply (H s v I N)).
  destruct (set_all_ok (given a) (mkFitter (fun _ => None) (fun _ => None) (fun _ => None) 0) F) as (f & E & Ho & Ha & K). exists f. split; [exact E|]. cbn [result] in Ho. split; [|split].
  - intros s v w I N T. apply judge_takes in T. specialize (K s). rewrite (given_once a s v I), T in K. rewrite get_kept, K by exact N. reflexivity.
  - intros N. specialize (K Data). rewrite (given_once a Data (g_data a)), (judge_not _ _ N) in K by (cbn; tauto). exact (f_equal found K).
  - intros q. unfold read. rewrite Ho. destruct q; reflexivity.
Qed.
Print Assumptions C93_constructor.
(** Every argument is given to the setting of its name. *)
Definition argument (a : arguments) (s : setting) : py :=
  match s with
  | Deriv => g_deriv a | Data => g_data a | Params0 => g_params0 a | Parinfo => g_parinfo a | Ftol => g_ftol a | Xtol => g_xtol a | Gtol => g_gtol a | Epsfcn => g_epsfcn a
  | Stepfactor => g_stepfactor a | Covtol => g_covtol a | Maxiter => g_maxiter a | Maxfev => g_maxfev a | Nofinitecheck => g_nofinitecheck a | Nan_policy => g_nan_policy a
  end.
Theorem C93_by_name : forall a,
  (forall f s w, new a = Ok f -> s <> Nofinitecheck -> takes s (argument a s) w -> get s f = Ok w) /\
  ((exists f, new a = Ok f) <-> forall s, s <> Data -> exists w, takes s (argument a s) w).
Proof.
  intros a. assert (I : forall s, In (s, argument a s) (given a)) by (intros []; cbn; tauto). assert (B : forall s v, In (s, v) (given a) -> v = argument a s) by (intros s v J; cbn in J; repeat (destruct J as [J|J]; [injection J as <- <-; reflexivity|]); destruct J).
  destruct (C93_constructor a) as [C1 C2]. assert (D : forall f, new a = Ok f -> forall s v, In (s, v) (given a) -> s <> Data -> exists w, takes s v w).
  { intros f E s v J N. destruct (judge s v) as [w| |] eqn:Jd; [exists w; apply judge_takes, Jd| |]; exfalso; (rewrite C2 in E; [discriminate E|]; exists s, v; split; [exact J|]; split; [exact N|]; intros w T; apply judge_takes in T; congruence). }
  split.
  - intros f s w E N T. destruct (C1 (D f E)) as (g & Eg & G & _). rewrite E in Eg. injection Eg as <-. apply (G s (argument a s) w (I s) N T).
  - split; [intros (f & E) s N; apply (D f E s _ (I s) N)|]. intros H. destruct C1 as (f & E & _); [|exists f; exact E]. intros s v J N. rewrite (B s v J). apply H, N.
Qed.
Print Assumptions C93_by_name.
Lemma minimise_check w p0 info f : get Nofinitecheck (fst (minimise w p0 info f)) = get Nofinitecheck f.
Proof. unfold minimise. destruct (prepare w p0 info) as [[|]|]; try reflexivity. destruct (get Data f); [|reflexivity]. destruct (first_norm w p0 a); [|reflexivity]. cbv zeta. destruct (bind _ _); reflexivity. Qed.
Lemma set_check s v f : get Nofinitecheck (fst (set s v f)) = get Nofinitecheck f.
Proof. unfold set. destruct (judge s v); try reflexivity. apply store_rest. Qed.
Lemma do_check f a : get Nofinitecheck (do f a) = get Nofinitecheck f.
Proof.
  destruct a as [s v|w p0]; cbn [do]; [apply set_check|]. unfold fit. destruct (set Params0 p0 f) as [g [[]|e]] eqn:E; assert (C := set_check Params0 p0 f); rewrite E in C; cbn [fst] in *; [|exact C].
  destruct (bind (get Params0 g) len) as [n|]; [|exact C]. destruct (get Parinfo g) as [info|]; [|exact C].
  destruct info; try (destruct (len _) as [m|]; [|exact C]; destruct (Nat.eqb n m); [rewrite minimise_check|]; exact C). rewrite minimise_check. rewrite <- C. apply store_rest.
Qed.
Definition unread (q : report) : Prop := q = Niter \/ q = Nfev \/ q = Npegged.
Lemma minimise_unread w p0 info f q : unread q -> result (fst (minimise w p0 info f)) (field q) = result f (field q).
Proof. intros U. unfold minimise. destruct (prepare w p0 info) as [[|]|]; try reflexivity. destruct (get Data f); [|reflexivity]. destruct (first_norm w p0 a); [|reflexivity]. cbv zeta. destruct (bind _ _); destruct U as [->|[->| ->]]; reflexivity. Qed.
Lemma set_result s v f : result (fst (set s v f)) = result f.
Proof. unfold set. destruct (judge s v); try reflexivity. apply store_rest. Qed.
Lemma do_unread f a q : unread q -> result (do f a) (field q) = result f (field q).
Proof.
  intros U. destruct a as [s v|w p0]; cbn [do]; [rewrite set_result; reflexivity|]. unfold fit. destruct (set Params0 p0 f) as [g [[]|e]] eqn:E; assert (C := set_result Params0 p0 f); rewrite E in C; cbn [fst] in *; [|rewrite C; reflexivity]. rewrite <- C.
  destruct (bind (get Params0 g) len) as [n|]; [|reflexivity]. destruct (get Parinfo g) as [info|]; [|reflexivity].
  destruct info; try (destruct (len _) as [m|]; [|reflexivity]; destruct (Nat.eqb n m); [apply minimise_unread, U|reflexivity]). rewrite minimise_unread by exact U. reflexivity.
Qed.
(** One setting takes a bool but cannot be read, and neither can three documented reports, whatever was set and fitted. *)
Theorem C93_never_readable : forall a f acts, new a = Ok f -> let g := fold_left do acts f in
  get Nofinitecheck g = Err AttributeError /\ read Niter g = Err AttributeError /\ read Nfev g = Err AttributeError /\ read Npegged g = Err AttributeError.
Proof.
  intros a f acts E g.
  assert (F : Forall (fun e => fst e <> Data -> exists w, takes (fst e) (snd e) w) (given a)).
  { apply Forall_forall. intros [s v] I N. destruct (judge s v) as [w| |] eqn:J; [exists w; apply judge_takes, J| |]; exfalso.
    - unfold new in E. rewrite set_all_err in E; [discriminate E|]. exists s, v. split; [exact I|]. split; [exact N|]. intros w T. apply judge_takes in T. congruence.
    - destruct s; try contradiction; cbn [judge] in J; unfold number in J; cbn in N; destruct v; cbn in J; try discriminate J; try (destruct (forallb _ l); discriminate J). }
  destruct (set_all_ok (given a) (mkFitter (fun _ => None) (fun _ => None) (fun _ => None) 0) F) as (f' & E' & Ho & Ha & _). unfold new in E. rewrite E in E'. injection E' as <-. cbn [result] in Ho.
  assert (C : get Nofinitecheck g = get Nofinitecheck f) by (unfold g; clear; revert f; induction acts as [|b acts IH]; intros f; [reflexivity|]; cbn [fold_left]; rewrite IH; apply do_check).
  assert (U : forall q, unread q -> result g (field q) = result f (field q)) by (unfold g; clear; intros q U; revert f; induction acts as [|b acts IH]; intros f; [reflexivity|]; cbn [fold_left]; rewrite IH; apply do_unread, U).
  split; [rewrite C, Ha; reflexivity|]. unfold read. rewrite !U by (unfold unread; tauto). rewrite Ho. repeat split.
Qed.
Print Assumptions C93_never_readable.

(** * What the optimiser is told *)
(** The optimiser is called with what the settings read, and with nothing else. *)
Theorem C93_options : forall f w w' p0 o,
  get Nan_policy f = Ok (x_nan_policy o) -> get Data f = Ok (x_data o) -> get Deriv f = Ok (x_deriv o) -> get Ftol f = Ok (x_ftol o) -> get Xtol f = Ok (x_xtol o) -> get Gtol f = Ok (x_gtol o) ->
  get Maxfev f = Ok (x_maxfev o) -> get Epsfcn f = Ok (x_epsfcn o) -> get Stepfactor f = Ok (x_factor o) ->
  prepare w = prepare w' -> first_norm w = first_norm w' -> (forall info, optimise w p0 info o = optimise w' p0 info o) -> fit w p0 f = fit w' p0 f.
Proof.
  intros f w w' p0 o H1 H2 H3 H4 H5 H6 H7 H8 H9 P N O.
  assert (M : forall g info, (forall s, s <> Params0 -> s <> Parinfo -> get s g = get s f) -> minimise w p0 info g = minimise w' p0 info g).
  { intros g info G. unfold minimise. rewrite P, N. destruct (prepare w' p0 info) as [[|]|]; try reflexivity. destruct (get Data g) as [d|]; [|reflexivity]. destruct (first_norm w' p0 d) as [n|]; [|reflexivity]. cbv zeta.
    assert (options_of {| attr := attr g; config := config g; result := upd "orignorm" n (result g); m_ := m_ g |} = Ok o) as ->; [|cbn [bind]; rewrite O; reflexivity].
    unfold options_of. assert (Q : forall s, get s {| attr := attr g; config := config g; result := upd "orignorm" n (result g); m_ := m_ g |} = get s g) by reflexivity. rewrite !Q, !G, H1 by discriminate. cbn [bind]. rewrite H2. cbn [bind]. rewrite H3. cbn [bind]. rewrite H4. cbn [bind]. rewrite H5. cbn [bind]. rewrite H6. cbn [bind]. rewrite H7. cbn [bind]. rewrite H8. cbn [bind]. rewrite H9. cbn [bind]. destruct o. reflexivity. }
  unfold fit. destruct (set Params0 p0 f) as [g [[]|e]] eqn:E; [|reflexivity].
  assert (G : forall s, s <> Params0 -> get s g = get s f). { intros s Ns. destruct (setting_eqb s Nofinitecheck) eqn:Ec; [apply seq_iff in Ec as ->; assert (C := set_check Params0 p0 f); rewrite E in C; exact C|]. assert (K := set_other Params0 p0 f s Ns). rewrite E in K. cbn [fst] in K. rewrite !get_kept, K by (intros ->; discriminate Ec). reflexivity. }
  destruct (bind (get Params0 g) len) as [n|]; [|reflexivity]. destruct (get Parinfo g) as [info|]; [|reflexivity].
  destruct info; try (destruct (len _) as [m|]; [|reflexivity]; destruct (Nat.eqb n m); [|reflexivity]; apply M; intros; apply G; assumption).
  apply M. intros s N1 N2. rewrite <- G by exact N1. destruct s; try reflexivity; contradiction.
Qed.
Print Assumptions C93_options.
(** The deprecated settings change nothing but themselves: every fit afterwards ends as it would have, and every other setting and report reads the same. *)
Definition deprecated (s : setting) : Prop := s = Covtol \/ s = Maxiter \/ s = Nofinitecheck.
Definition same_but (f g : fitter) : Prop := (forall s, ~ deprecated s -> kept f s = kept g s) /\ result f = result g /\ m_ f = m_ g.
Lemma same_get f g s : same_but f g -> ~ deprecated s -> get s f = get s g.
Proof. intros (K & _) N. rewrite !get_kept, (K s N) by (intros ->; apply N; right; right; reflexivity). reflexivity. Qed.
Lemma same_store f g s v : same_but f g -> same_but (store s v f) (store s v g).
Proof. intros (K & O & A). destruct (store_rest s v f) as (R1 & M1 & _), (store_rest s v g) as (R2 & M2 & _). split; [|split; congruence]. intros t N. rewrite !kept_store. destruct (setting_eqb t s); [reflexivity|apply K, N]. Qed.
Lemma same_set f g s v : same_but f g -> same_but (fst (set s v f)) (fst (set s v g)) /\ snd (set s v f) = snd (set s v g).
Proof. intros S. unfold set. destruct (judge s v); cbn [fst snd]; (split; [|reflexivity]); [apply same_store, S|exact S|exact S]. Qed.
Ltac live := intros [H|[H|H]]; discriminate H.
Lemma same_minimise f g w p0 info : same_but f g -> same_but (fst (minimise w p0 info f)) (fst (minimise w p0 info g)) /\ snd (minimise w p0 info f) = snd (minimise w p0 info g).
Proof.
  intros S. assert (S' := S). destruct S' as (K & O & A). unfold minimise. destruct (prepare w p0 info) as [[|]|]; try (split; [exact S|reflexivity]). rewrite (same_get f g Data S) by live. destruct (get Data g) as [d|]; [|split; [exact S|reflexivity]]. destruct (first_norm w p0 d) as [n|]; [|split; [exact S|reflexivity]]. cbv zeta.
  set (f1 := {| attr := attr f; config := config f; result := upd "orignorm" n (result f); m_ := m_ f |}). set (g1 := {| attr := attr g; config := config g; result := upd "orignorm" n (result g); m_ := m_ g |}).
  assert (Sn : same_but f1 g1) by (split; [exact K|split; [cbn; rewrite O; reflexivity|exact A]]).
  assert (options_of f1 = options_of g1) as ->.
  { unfold options_of. rewrite !(same_get _ _ _ Sn) by live. reflexivity. }
  destruct (bind _ _); cbn [fst snd]; (split; [|reflexivity]); [|exact Sn]. split; [exact K|]. split; [|reflexivity]. cbn [keep result f1 g1]. rewrite O. reflexivity.
Qed.
Lemma same_fit f g w p0 : same_but f g -> same_but (fst (fit w p0 f)) (fst (fit w p0 g)) /\ snd (fit w p0 f) = snd (fit w p0 g).
Proof.
  intros S. unfold fit. destruct (same_set f g Params0 p0 S) as [S1 R1]. destruct (set Params0 p0 f) as [f1 r1], (set Params0 p0 g) as [g1 r2]. cbn [fst snd] in S1, R1. subst r2. destruct r1 as [[]|e]; [|split; [exact S1|reflexivity]].
  rewrite !(same_get f1 g1 _ S1) by live. destruct (bind (get Params0 g1) len) as [n|]; [|split; [exact S1|reflexivity]]. destruct (get Parinfo g1) as [info|]; [|split; [exact S1|reflexivity]].
  destruct info; try (destruct (len _) as [m|]; [|split; [exact S1|reflexivity]]; destruct (Nat.eqb n m); [|split; [exact S1|reflexivity]]; apply same_minimise, S1).
  apply same_minimise, same_store, S1.
Qed.
Lemma same_do f g a : same_but f g -> same_but (do f a) (do g a).
Proof. intros S. destruct a; cbn [do]; [apply same_set, S|apply same_fit, S]. Qed.
Lemma same_fold acts : forall f g, same_but f g -> same_but (fold_left do acts f) (fold_left do acts g).
Proof. induction acts as [|a acts IH]; intros f g S; [exact S|]. cbn [fold_left]. apply IH, same_do, S. Qed.
Theorem C93_no_effect : forall s v f acts w p0, deprecated s -> let f1 := fold_left do acts f in let f2 := fold_left do (Set_ s v :: acts) f in
  (forall t, ~ deprecated t -> get t f2 = get t f1) /\ (forall q, read q f2 = read q f1) /\ snd (fit w p0 f2) = snd (fit w p0 f1).
Proof.
  intros s v f acts w p0 D f1 f2. assert (S : same_but f2 f1).
  { unfold f1, f2. cbn [fold_left]. apply same_fold. cbn [do]. unfold set. destruct (judge s v); try (split; [reflexivity|split; reflexivity]). cbn [fst]. destruct (store_rest s v0 f) as (R1 & M1 & _). split; [|split; assumption]. intros t N. rewrite kept_store. destruct (setting_eqb t s) eqn:E; [apply seq_iff in E as ->; contradiction|reflexivity]. }
  split; [intros t N; apply same_get; assumption|]. split; [|apply same_fit, S]. intros q. destruct S as (_ & O & A). apply read_eq; assumption.
Qed.
Print Assumptions C93_no_effect.

(** * The reports *)
Definition shows (f : fitter) (a : answer) : Prop :=
  read Params f = Ok (PList (a_values a)) /\ read Xerror f = Ok (PList (a_stderr a)) /\ read Covar f = Ok (a_covar a) /\ read Chi2_min f = Ok (a_chisqr a) /\ read Rchi2_min f = Ok (a_redchi a) /\
  read Nfree f = Ok (PInt (a_nfree a)) /\ read Dof f = Ok (PInt (a_ndata a - a_nfree a)) /\ read Resid f = Ok (a_residual a) /\ read Status f = Ok (a_ier a) /\ read Message f = Ok (a_message a).
(** The same answer, whatever the norm at the start. *)
Definition same_answer (f g : fitter) : Prop := m_ f = m_ g /\ forall k, k <> "orignorm"%string -> result f k = result g k.
Lemma same_shows f g : same_answer f g -> forall a, shows f a <-> shows g a.
Proof. intros [M R] a. unfold shows, read. cbn [field]. rewrite M, !R by discriminate. tauto. Qed.
Lemma shows_keep a f : shows (keep a f) a. Proof. repeat split. Qed.
Lemma minimise_end w p0 info f : 
  match minimise w p0 info f with
  | (g, Ok _) => exists o a d n, options_of f = Ok o /\ optimise w p0 info o = Ok a /\ get Data f = Ok d /\ first_norm w p0 d = Ok n /\ shows g a /\ read Orignorm g = Ok n
  | (g, Err _) => same_answer g f /\ (read Orignorm g = read Orignorm f \/ exists d n, get Data f = Ok d /\ first_norm w p0 d = Ok n /\ read Orignorm g = Ok n)
  end.
Proof.
  assert (Z : same_answer f f) by (split; reflexivity).
  unfold minimise. destruct (prepare w p0 info) as [[|]|]; try (split; [exact Z|left; reflexivity]). destruct (get Data f) as [d|] eqn:Ed; [|split; [exact Z|left; reflexivity]]. destruct (first_norm w p0 d) as [n|] eqn:En; [|split; [exact Z|left; reflexivity]]. cbv zeta.
  change (options_of {| attr := attr f; config := config f; result := upd "orignorm" n (result f); m_ := m_ f |}) with (options_of f).
  assert (Zn : same_answer {| attr := attr f; config := config f; result := upd "orignorm" n (result f); m_ := m_ f |} f). { split; [reflexivity|]. intros k N. cbn [result]. unfold upd. destruct (String.eqb_spec k "orignorm"); [contradiction|reflexivity]. }
  destruct (options_of f) as [o|]; cbn [bind].
  - destruct (optimise w p0 info o) as [a|] eqn:Ea; [exists o, a, d, n; repeat split; assumption|]. split; [exact Zn|]. right. exists d, n. repeat split. exact En.
  - split; [exact Zn|]. right. exists d, n. repeat split. exact En.
Qed.
(** A fit that ends reports what the optimiser said, called with the starting values and the settings of the moment, and the norm the residuals had at the starting values;
    one that raises leaves all reports but this norm. *)
Theorem C93_fit_reports : forall w p0 f f' r, fit w p0 f = (f', r) ->
  match r with
  | Ok _ => exists info o a d n, get Parinfo f' = Ok info /\ options_of f = Ok o /\ optimise w p0 info o = Ok a /\ shows f' a /\ get Data f = Ok d /\ first_norm w p0 d = Ok n /\ read Orignorm f' = Ok n
  | Err _ => (forall a, shows f' a <-> shows f a) /\ (read Orignorm f' = read Orignorm f \/ exists d n, get Data f = Ok d /\ first_norm w p0 d = Ok n /\ read Orignorm f' = Ok n)
  end.
Proof.
  intros w p0 f f' r E. unfold fit in E. destruct (set Params0 p0 f) as [g r0] eqn:Es.
  assert (G : forall s, s <> Params0 -> kept g s = kept f s) by (intros s N; assert (K := set_other Params0 p0 f s N); rewrite Es in K; exact K).
  assert (OA : result g = result f /\ m_ g = m_ f) by (unfold set in Es; destruct (judge Params0 p0); injection Es as <- _; split; reflexivity). destruct OA as [O A].
  assert (SA : forall h, result h = result f -> m_ h = m_ f -> same_answer h f) by (intros h X Y; split; [exact Y|intros k _; rewrite X; reflexivity]).
  assert (Z : forall e, (g, Err e) = (f', r) -> match r with Ok _ => False | Err _ => (forall a, shows f' a <-> shows f a) /\ (read Orignorm f' = read Orignorm f \/ exists d n, get Data f = Ok d /\ first_norm w p0 d = Ok n /\ read Orignorm f' = Ok n) end).
  { intros e X. injection X as <- <-. split; [apply same_shows, SA; assumption|]. left. apply read_eq; assumption. }
  assert (Z' : forall e, (g, Err e) = (f', r) -> match r with Ok _ => exists info o a d n, get Parinfo f' = Ok info /\ options_of f = Ok o /\ optimise w p0 info o = Ok a /\ shows f' a /\ get Data f = Ok d /\ first_norm w p0 d = Ok n /\ read Orignorm f' = Ok n | Err _ => (forall a, shows f' a <-> shows f a) /\ (read Orignorm f' = read Orignorm f \/ exists d n, get Data f = Ok d /\ first_norm w p0 d = Ok n /\ read Orignorm f' = Ok n) end).
  { intros e X. specialize (Z e X). destruct r; [contradiction|exact Z]. }
  assert (M : forall info h, (forall s, s <> Params0 -> s <> Parinfo -> kept h s = kept f s) -> get Parinfo h = Ok info -> result h = result f -> m_ h = m_ f -> minimise w p0 info h = (f', r) ->
     match r with Ok _ => exists info o a d n, get Parinfo f' = Ok info /\ options_of f = Ok o /\ optimise w p0 info o = Ok a /\ shows f' a /\ get Data f = Ok d /\ first_norm w p0 d = Ok n /\ read Orignorm f' = Ok n | Err _ => (forall a, shows f' a <-> shows f a) /\ (read Orignorm f' = read Orignorm f \/ exists d n, get Data f = Ok d /\ first_norm w p0 d = Ok n /\ read Orignorm f' = Ok n) end).
  { intros info h K I Oh Ah X. assert (Y := minimise_end w p0 info h). assert (W := minimise_kept w p0 info h). rewrite X in Y, W. cbn [fst] in W. 
    assert (Gh : forall s, s <> Params0 -> s <> Parinfo -> s <> Nofinitecheck -> get s h = get s f) by (intros s N1 N2 N3; rewrite !get_kept, (K s N1 N2) by exact N3; reflexivity).
    assert (Oh' : options_of h = options_of f) by (unfold options_of; rewrite !Gh by discriminate; reflexivity).
    destruct r as [[]|e].
    - destruct Y as (o & a & d & n & Y1 & Y2 & Y3 & Y4 & Y5 & Y6). exists info, o, a, d, n. rewrite <- Oh', <- Gh by discriminate. repeat (split; [try assumption|]); try assumption. rewrite get_kept, W by discriminate. exact I.
    - destruct Y as [Y1 Y2]. split; [intros a; rewrite (same_shows _ _ Y1 a); apply same_shows, SA; assumption|]. destruct Y2 as [Y2|(d & n & Y2 & Y3 & Y4)]; [left; rewrite Y2; apply read_eq; assumption|]. right. exists d, n. rewrite <- Gh by discriminate. repeat split; assumption. }
  destruct r0 as [[]|e]; [|apply (Z' _ E)]. destruct (bind (get Params0 g) len) as [n|]; [|apply (Z' _ E)]. destruct (get Parinfo g) as [info|] eqn:Ei; [|apply (Z' _ E)].
  assert (S : forall s, s <> Params0 -> s <> Parinfo -> kept g s = kept f s) by (intros; apply G; assumption).
  destruct info; try (destruct (len _) as [m|]; [|apply (Z' _ E)]; destruct (Nat.eqb n m); [|apply (Z' _ E)]; apply (M _ g S Ei O A E)).
  apply (M (PList (repeat PNone n)) (store Parinfo (PList (repeat PNone n)) g)); try assumption; [|reflexivity]. intros s N1 N2. rewrite kept_store. destruct s; try (apply G; assumption); contradiction.
Qed.
Print Assumptions C93_fit_reports.
(** Reports are those of the last fit that ended; before that there are none. *)
Definition ends (f : fitter) (a : act) : Prop := match a with Fit w p0 => snd (fit w p0 f) = Ok tt | Set_ _ _ => False end.
Lemma not_ended f a : ~ ends f a -> forall b, shows (do f a) b <-> shows f b.
Proof.
  destruct a as [s v|w p0]; cbn [do ends]; intros N b.
  - apply same_shows. unfold set. destruct (judge s v); try (split; reflexivity). destruct (store_rest s v0 f) as (R & M & _). split; [exact M|]. intros k _. cbn [fst]. rewrite R. reflexivity.
  - destruct (fit w p0 f) as [g r] eqn:E. cbn [fst snd] in *. assert (R := C93_fit_reports w p0 f g r E). destruct r as [[]|e]; [contradiction|]. apply R.
Qed.
Theorem C93_last_fit : forall f before w p0 after, let g := fold_left do before f in ends g (Fit w p0) -> (forall l1 a l2, after = l1 ++ a :: l2 -> ~ ends (fold_left do l1 (do g (Fit w p0))) a) ->
  exists info o a, options_of g = Ok o /\ optimise w p0 info o = Ok a /\ shows (fold_left do (before ++ Fit w p0 :: after) f) a.
Proof.
  intros f before w p0 after g E N. rewrite fold_left_app. cbn [fold_left]. fold g. cbn [ends] in E. destruct (fit w p0 g) as [g1 r] eqn:Ef. cbn [snd] in E. subst r. assert (R := C93_fit_reports w p0 g g1 _ Ef). cbn in R. destruct R as (info & o & a & d & n & _ & R1 & R2 & R3 & _).
  exists info, o, a. split; [exact R1|]. split; [exact R2|]. assert (D : do g (Fit w p0) = g1) by (cbn [do]; rewrite Ef; reflexivity). rewrite D in *. clear - R3 N. revert g1 N R3. induction after as [|b after IH]; intros g1 N R3; [exact R3|]. cbn [fold_left]. apply IH.
  - intros l1 c l2 E. apply (N (b :: l1) c l2). rewrite E. reflexivity.
  - apply not_ended; [|exact R3]. apply (N [] b after). reflexivity.
Qed.
Print Assumptions C93_last_fit.
Lemma minimise_silent w p0 info f q : q <> Orignorm -> read q f = Err AttributeError -> snd (minimise w p0 info f) <> Ok tt -> read q (fst (minimise w p0 info f)) = Err AttributeError.
Proof.
  intros N H E. assert (Y := minimise_end w p0 info f). destruct (minimise w p0 info f) as [g [[]|e]]; [exfalso; apply E; reflexivity|]. cbn [fst]. destruct Y as [[M R] _]. rewrite <- H. unfold read. rewrite M. destruct q; try contradiction; rewrite R by discriminate; reflexivity.
Qed.
Lemma silent f a q : q <> Orignorm -> read q f = Err AttributeError -> ~ ends f a -> read q (do f a) = Err AttributeError.
Proof.
  intros N H E. destruct a as [s v|w p0]; cbn [do ends] in *.
  - rewrite <- H. unfold set. destruct (judge s v); try reflexivity. destruct (store_rest s v0 f) as (R & M & _). apply read_eq; assumption.
  - unfold fit in *. destruct (set Params0 p0 f) as [g r0] eqn:Es. assert (Hg : read q g = Err AttributeError). { rewrite <- H. apply read_eq; [assert (C := set_result Params0 p0 f); rewrite Es in C; exact C|]. unfold set in Es. destruct (judge Params0 p0); injection Es as <- _; reflexivity. }
    destruct r0 as [[]|e]; [|exact Hg]. destruct (bind (get Params0 g) len) as [n|]; [|exact Hg]. destruct (get Parinfo g) as [info|]; [|exact Hg].
    destruct info; try (destruct (len _) as [m|]; [|exact Hg]; destruct (Nat.eqb n m); [|exact Hg]; apply minimise_silent; assumption). apply minimise_silent; try assumption.
Qed.
Theorem C93_no_fit_yet : forall f acts, (forall q, read q f = Err AttributeError) -> (forall l1 a l2, acts = l1 ++ a :: l2 -> ~ ends (fold_left do l1 f) a) -> forall q, q <> Orignorm -> read q (fold_left do acts f) = Err AttributeError.
Proof.
  intros f acts H N q Nq. specialize (H q). revert f H N. induction acts as [|a acts IH]; intros f H N; [exact H|]. cbn [fold_left]. apply IH; [apply silent; [exact Nq|exact H|apply (N [] a acts); reflexivity]|]. intros l1 b l2 E. apply (N (a :: l1) b l2). rewrite E. reflexivity.
Qed.
Print Assumptions C93_no_fit_yet.
(** The number of parameters is that of the starting values; a fit without constraints leaves one None for each. *)
Theorem C93_number : forall w p0 f v, takes Params0 p0 v -> (exists i, get Parinfo f = Ok i) -> let f' := fst (fit w p0 f) in
  (forall l, p0 = PList l \/ p0 = PTuple l -> npar f' = Ok (Some (List.length l)) /\ (get Parinfo f = Ok PNone -> get Parinfo f' = Ok (PList (repeat PNone (List.length l))))) /\
  (forall l, p0 = PArr l -> npar f' = Ok (Some (List.length l)) /\ (get Parinfo f = Ok PNone -> get Parinfo f' = Ok (PList (repeat PNone (List.length l))))) /\
  (p0 = PNone -> npar f' = Ok None /\ get Parinfo f' = get Parinfo f /\ snd (fit w p0 f) = Err TypeError) /\
  (get Parinfo f <> Ok PNone -> get Parinfo f' = get Parinfo f).
Proof.
  intros w p0 f v T [i Hi] f'. assert (J := T). apply judge_takes in J.
  assert (K0 : kept f' Params0 = Some v) by (unfold f'; rewrite fit_kept, set_same, J by discriminate; reflexivity).
  assert (V : v = p0) by (inversion T; try reflexivity; cbn in *; intuition discriminate). subst v.
  assert (Np : npar f' = match len p0 with Ok n => Ok (Some n) | Err TypeError => Ok None | Err e => Err e end) by (unfold npar; rewrite get_kept, K0 by discriminate; reflexivity).
  assert (P : forall n, len p0 = Ok n -> get Parinfo f = Ok PNone -> get Parinfo f' = Ok (PList (repeat PNone n))).
  { intros n L Pn. unfold f', fit, set. rewrite J. assert (get Params0 (store Params0 p0 f) = Ok p0) as -> by reflexivity. cbn [bind]. rewrite L. assert (get Parinfo (store Params0 p0 f) = Ok PNone) as -> by exact Pn.
    rewrite get_kept, minimise_kept by discriminate. reflexivity. }
  split; [|split; [|split]].
  - intros l [-> | ->]; (split; [rewrite Np; reflexivity|apply P; reflexivity]).
  - intros l ->. split; [rewrite Np; reflexivity|apply P; reflexivity].
  - intros ->. split; [rewrite Np; reflexivity|]. unfold f', fit. cbn [set judge]. split; reflexivity.
  - intros N. unfold f', fit, set. rewrite J. assert (get Params0 (store Params0 p0 f) = Ok p0) as -> by reflexivity. cbn [bind]. assert (get Parinfo (store Params0 p0 f) = get Parinfo f) as -> by reflexivity. rewrite Hi in *.
    assert (Q : forall g, kept g Parinfo = kept (store Params0 p0 f) Parinfo -> get Parinfo g = Ok i) by (intros g X; rewrite <- Hi, !get_kept, X by discriminate; reflexivity).
    destruct (len p0) as [n|]; [|apply Q; reflexivity]. destruct i; try contradiction; try (destruct (len _) as [m|]; [|apply Q; reflexivity]; destruct (Nat.eqb n m); apply Q; [rewrite minimise_kept|]; reflexivity).
Qed.
Print Assumptions C93_number.

(** * Cases *)
Definition plain_args : arguments := mkArguments PNone (PTuple [PArr [1; 2]%R; PArr [3; 4]%R]) PNone PNone (PNum (1 / 10 ^ 10)) (PNum (1 / 10 ^ 10)) (PNum (1 / 10 ^ 10)) PNone (PNum 100) (PNum (1 / 10 ^ 14)) (PInt 200) PNone (PBool false) (PStr "omit").
Example C93_plain : forall s v, In (s, v) (given plain_args) -> s <> Data -> exists w, takes s v w.
Proof.
  intros s v I N. cbn in I. destruct I as [E|[E|[E|[E|[E|[E|[E|[E|[E|[E|[E|[E|[E|[E|[]]]]]]]]]]]]]]]; injection E as <- <-; try contradiction; eexists; try (apply t_tol; [cbn; tauto|constructor]); try (apply t_int; [cbn; tauto|constructor]); constructor.
Qed.
(** A flag is an integer, and so a number; a number is not a flag; None is no tolerance. *)
Example C93_kinds : takes Maxiter (PBool true) (PBool true) /\ takes Ftol (PBool true) (PBool true) /\ (forall w, ~ takes Nofinitecheck (PInt 1) w) /\ (forall w, ~ takes Ftol PNone w) /\ (forall w, ~ takes Data (PList []) w) /\ (forall w, ~ takes Maxfev (PNum 100) w).
Proof.
  split; [apply t_int; [cbn; tauto|constructor]|]. split; [apply t_tol; [cbn; tauto|constructor]|].
  assert (K : forall s v, judge s v <> judge Deriv v -> (match judge s v with Keep _ => False | _ => True end) -> forall w, ~ takes s v w) by (intros s v _ M w T; apply judge_takes in T; rewrite T in M; exact M).
  repeat split; apply K; cbn; try exact I; discriminate.
Qed.
Definition said (n : Z) : answer := mkAnswer (PInt n) (PInt n) 2 1 (PArr []) (PInt 1) (PArr [1%R]) [PInt 0] [PInt n] (PStr "").
Definition works (n m : Z) : surroundings := mkSur (fun _ _ => Ok true) (fun _ _ => Ok (PInt n)) (fun _ _ _ => Ok (said m)).
Definition fails (n : Z) : surroundings := mkSur (fun _ _ => Ok true) (fun _ _ => Ok (PInt n)) (fun _ _ _ => Err RuntimeError).
Example C93_ending : exists f, new plain_args = Ok f /\ (forall q, read q f = Err AttributeError) /\ ends f (Fit (works 9 5) (PList [PInt 1])) /\ ~ ends f (Fit (fails 9) (PList [PInt 1])) /\ (exists o, options_of f = Ok o).
Proof. eexists. split; [reflexivity|]. split; [intros []; reflexivity|]. split; [reflexivity|]. split; [discriminate|]. eexists. reflexivity. Qed.
Example C93_deprecated : deprecated Maxiter /\ takes Maxiter (PInt 1) (PInt 1) /\ ~ deprecated Maxfev.
Proof. split; [right; left; reflexivity|]. split; [apply t_int; [cbn; tauto|constructor]|]. intros [H|[H|H]]; discriminate H. Qed.

(** The norms before and after fitting need not be those of one fit. *)
Theorem C93_one_fit_refuted : exists a f w p0 w' p0' n m n', new a = Ok f /\ snd (fit w p0 f) = Ok tt /\ first_norm w p0 (g_data a) = Ok n /\ first_norm w' p0' (g_data a) = Ok n' /\ n <> n' /\
  let g := fold_left do [Fit w p0; Fit w' p0'] f in read Orignorm (fst (fit w p0 f)) = Ok n /\ read Chi2_min (fst (fit w p0 f)) = Ok m /\ read Orignorm g = Ok n' /\ read Chi2_min g = Ok m /\
  read Params g = read Params (fst (fit w p0 f)) /\ get Params0 g = Ok p0' /\ p0 <> p0'.
Proof.
  eexists plain_args, _, (works 9 5), (PList [PInt 1]), (fails 100), (PList [PInt 7]), (PInt 9), (PInt 5), (PInt 100).
  split; [reflexivity|]. split; [reflexivity|]. split; [reflexivity|]. split; [reflexivity|]. split; [discriminate|]. repeat split; discriminate.
Qed.
Print Assumptions C93_one_fit_refuted.

(** C96: the fit drawn over a plot of a dataset. *)
From Coq Require Import String Ascii List ZArith Reals Lra Lia Arith Bool.
From Verif Require Import Base FitModel FitProps DescribeModel PlotFitModel.
From Verif Require DescribeProps ToolsModel.
Import ListNotations.
Local Open Scope R_scope.
Local Open Scope list_scope.

(** * The words of the statements *)
(** [x_i, y_i] and the errors [e_i] shown, after smoothing. *)
Definition shows (w : surroundings) (d : dataset) (x y : string) (sigma : R) (xs ys es : list R) : Prop :=
  In (x, xs) (columns d) /\ NoDup (map fst (columns d)) /\ exists ys0, (sigma <= 0 -> ys = ys0) /\ (0 < sigma -> ys = smooth w sigma ys0) /\
    ((y = "intensity"%string /\ ys0 = intensity d /\ es = error d) \/ (y <> "intensity"%string /\ In (y, ys0) (columns d) /\ es = map sqrt ys0)).
Definition held (o : fit_options) (i : nat) : bool := match o_fixp o with Some b => nth i b false | None => false end.
Definition within (n : nat) (z : Z) (x : R) : Prop := Rabs (IZR z / 10 ^ n - x) <= / 2 / 10 ^ n.
(** The residuals: (y - f(x)) / error at every point, not finite for an error of zero. *)
Definition differences (f : function) (xs ys es : list R) (r : list R -> list (option R)) : Prop :=
  forall p, List.length (f p xs) = List.length ys -> List.length es = List.length ys -> List.length (r p) = List.length ys /\
    forall i, (i < List.length ys)%nat -> nth i (r p) None = if Req_EM_T (nth i es 0) 0 then None else Some ((nth i ys 0 - nth i (f p xs) 0) / nth i es 0).

Lemma lookup_in {A} k (l : list (string * A)) v : In (k, v) l -> NoDup (map fst l) -> ToolsModel.lookup k l = Some v.
Proof.
  unfold ToolsModel.lookup. induction l as [|[k' v'] l IH]; intros I N; [destruct I|]. cbn [map fst] in N. inversion N; subst. cbn [find fst]. destruct I as [I|I].
  - injection I as -> ->. rewrite String.eqb_refl. reflexivity.
  - destruct (String.eqb_spec k' k) as [->|]; [exfalso; apply H1; apply in_map_iff; exists (k, v); auto|apply IH; assumption].
Qed.
Lemma shows_model w d x y sigma xs ys es : shows w d x y sigma xs ys es -> column d x = Ok xs /\ exists ys0, PlotFitModel.shown d y = Ok (ys0, es) /\ ys = if Rlt_dec 0 sigma then smooth w sigma ys0 else ys0.
Proof.
  intros (I & N & ys0 & S1 & S2 & C). unfold column. rewrite (lookup_in _ _ _ I N). split; [reflexivity|]. exists ys0. split.
  - unfold PlotFitModel.shown. destruct C as [(-> & -> & ->)|(Ny & Iy & ->)]; [reflexivity|]. destruct (String.eqb_spec y "intensity"); [contradiction|]. unfold column. rewrite (lookup_in _ _ _ Iy N). reflexivity.
  - destruct (Rlt_dec 0 sigma); [apply S2; assumption|apply S1; lra].
Qed.
Lemma residuals_differences f xs ys es : differences f xs ys es (residuals f xs ys es).
Proof.
  intros p L1 L2. unfold residuals. split; [rewrite map_length, !combine_length; lia|]. intros i Li.
  rewrite (nth_indep _ None (quotient (fst (fst ((0, 0), 0)) - snd (fst ((0, 0), 0))) (snd ((0, 0), 0)))) by (rewrite map_length, !combine_length; lia).
  rewrite (map_nth (fun q => quotient (fst (fst q) - snd (fst q)) (snd q))). rewrite !combine_nth by (rewrite ?combine_length; lia). cbn [fst snd]. reflexivity.
Qed.

(** * Ends and spacing *)
Lemma extreme_spec (better : R -> R -> R) (le : R -> R -> Prop) : (forall a b, better a b = a \/ better a b = b) -> (forall a b, le (better a b) a /\ le (better a b) b) -> (forall a, le a a) -> (forall a b c, le a b -> le b c -> le a c) ->
  forall l, l <> [] -> exists m, extreme better l = Ok m /\ In m l /\ forall x, In x l -> le m x.
Proof.
  intros H1 H2 Hr Ht [|x l] N; [contradiction|]. clear N. exists (fold_left better l x). split; [reflexivity|]. revert x. induction l as [|y l IH]; intros x; cbn [fold_left].
  - split; [left; reflexivity|]. intros z [->|[]]. apply Hr.
  - destruct (IH (better x y)) as [I J]. split.
    + destruct I as [I|I]; [|right; right; exact I]. destruct (H1 x y) as [E|E]; rewrite E in I; [left; congruence|right; left; congruence].
    + destruct (H2 x y) as [A B]. intros z [->|[->|Iz]]; [apply (Ht _ (better z y)); [apply J; left; reflexivity|exact A]|apply (Ht _ (better x z)); [apply J; left; reflexivity|exact B]|apply J; right; exact Iz].
Qed.
Lemma least_spec l : l <> [] -> exists m, extreme Rmin l = Ok m /\ In m l /\ forall x, In x l -> m <= x.
Proof. apply (extreme_spec Rmin Rle); [intros a b; unfold Rmin; destruct (Rle_dec a b); auto|intros a b; split; [apply Rmin_l|apply Rmin_r]|intros; lra|intros; lra]. Qed.
Lemma greatest_spec l : l <> [] -> exists m, extreme Rmax l = Ok m /\ In m l /\ forall x, In x l -> x <= m.
Proof. apply (extreme_spec Rmax (fun a b => b <= a)); [intros a b; unfold Rmax; destruct (Rle_dec a b); auto|intros a b; split; [apply Rmax_l|apply Rmax_r]|intros; lra|intros; lra]. Qed.
Lemma linspace_nth a b n i : (i < n)%nat -> nth i (linspace a b n) 0 = a + INR i * ((b - a) / INR (n - 1)).
Proof. intros L. unfold linspace. rewrite (nth_indep _ 0 (a + INR 0 * ((b - a) / INR (n - 1)))) by (rewrite map_length, seq_length; exact L). rewrite (map_nth (fun i => a + INR i * ((b - a) / INR (n - 1)))), seq_nth by exact L. reflexivity. Qed.

Lemma nth_last (t : list R) : nth (List.length t - 1) t 0 = last t 0.
Proof. induction t as [|u t IH]; [reflexivity|]. destruct t as [|u' t]; [reflexivity|]. change (last (u :: u' :: t) 0) with (last (u' :: t) 0). rewrite <- IH. cbn [List.length Nat.sub nth]. rewrite Nat.sub_0_r. reflexivity. Qed.

(** * The constraints *)
Definition constraints (o : fit_options) (l : list R) : list (option info) := match o_fixp o with Some b => map (fun b => Some (mkInfo None (Some b))) b | None => repeat None (List.length l) end.
Lemma constraints_free o l i : free (constraints o l) i = negb (held o i).
Proof.
  unfold free, constraints, held, nth_info. destruct (o_fixp o) as [b|].
  - revert i. induction b as [|x b IH]; intros [|i]; cbn; [reflexivity..| |apply IH]. destruct x; reflexivity.
  - assert (E : nth i (repeat None (List.length l)) None = @None info) by (revert i; induction (List.length l) as [|k IH]; intros [|i]; cbn; auto). rewrite E. reflexivity.
Qed.
Lemma constraints_documented o l : Forall documented (constraints o l).
Proof. unfold constraints. destruct (o_fixp o) as [b|]; apply Forall_forall; intros x I; [apply in_map_iff in I as (y & <- & _); exact Logic.I|apply repeat_spec in I as ->; exact Logic.I]. Qed.
Lemma constraints_length o l : (forall b, o_fixp o = Some b -> List.length b = List.length l) -> List.length (constraints o l) = List.length l.
Proof. intros H. unfold constraints. destruct (o_fixp o) as [b|]; [rewrite map_length; apply H; reflexivity|apply repeat_length]. Qed.
Lemma constraints_in_force o l : in_force (mkFitter (Some tt) None (option_map (map (fun b => Some (mkInfo None (Some b)))) (o_fixp o)) None) l (constraints o l).
Proof. unfold in_force, constraints. cbn [f_parinfo]. destruct (o_fixp o); [left; reflexivity|right; split; reflexivity]. Qed.
Lemma constraints_bound o l j i : bound j (constraints o l) i = None.
Proof.
  unfold bound, constraints, nth_info. destruct (o_fixp o) as [b|].
  - revert i. induction b as [|x b IH]; intros [|i]; cbn; auto.
  - assert (E : nth i (repeat None (List.length l)) None = @None info) by (revert i; induction (List.length l) as [|k IH]; intros [|i]; cbn; auto). rewrite E. reflexivity.
Qed.
(** The fit of FitProps.v, with the parameters it starts from. *)
Lemma fit_from (o : optimiser) (f : fitter unit) a l inf : f_data f = Some tt -> a = AList l \/ a = AArray l -> in_force f l inf -> List.length inf = List.length l -> Forall documented inf ->
  (exists i, (i < List.length l)%nat /\ free inf i = true) ->
  exists p f' tr r s, add_all [] 0 (combine l inf) = Ok p /\ List.length p = List.length l /\
    (forall i, (i < List.length l)%nat -> get (name i) p = Ok (mkParam (nth i l 0) (free inf i) (bound 0 inf i) (bound 1 inf i))) /\
    fit o f a = (f', tr, Ok s) /\ f_result f' = Some r /\ filled l inf (u_final (o p)) (o_params r).
Proof.
  intros Hd Ha Hf Hl Hdoc [i0 [Li0 Fi0]]. set (p := build 0 (combine l inf)). assert (Nm := named_build (combine l inf) 0). fold p in Nm.
  assert (Add : add_all [] 0 (combine l inf) = Ok p). { rewrite add_all_spec; auto; [intros q []|]. intros [x y] I. apply in_combine_r in I. rewrite Forall_forall in Hdoc. now apply Hdoc. }
  assert (NF : forallb (fun q => negb (p_vary (snd q))) p = false). { destruct (forallb _ p) eqn:E; auto. unfold p in E. rewrite (build_all_fixed l inf 0) in E by auto. rewrite E in Fi0 by auto. discriminate. }
  assert (V : forall t, values (assign t p) = Ok (map (fun q => p_value (snd q)) (assign t p))) by (intros; apply values_named, named_assign, Nm).
  assert (Tr : map_res (fun t => values (assign t p)) (u_trials (o p)) = Ok (map (fun t => map (fun q => p_value (snd q)) (assign t p)) (u_trials (o p)))) by (apply map_res_ok; intros; apply V).
  assert (Core : forall f', f_data f' = Some tt -> exists r tr, fit_core o f' a inf = (tr, Ok (r, u_success (o p))) /\ o_params r = map (fun q => p_value (snd q)) (assign (u_final (o p)) p)).
  { intros f' Hd'. unfold fit_core. assert (Ea : entries a = l) by (destruct Ha; subst a; reflexivity). rewrite Ea, Add, NF, Hd', Tr, V. destruct Ha; subst a; eexists; eexists; split; reflexivity. }
  exists p. unfold fit.
  assert (S0 : set_params0 f a = Ok (mkFitter (f_data f) (Some a) (f_parinfo f) (f_result f))) by (destruct Ha; subst a; reflexivity). rewrite S0. cbn [f_params0 f_parinfo f_data f_result].
  assert (Ea : entries a = l) by (destruct Ha; subst a; reflexivity). rewrite Ea.
  destruct (Core (mkFitter (f_data f) (Some a) (Some inf) (f_result f)) Hd) as [r [tr [Er Ep]]].
  exists (mkFitter (f_data f) (Some a) (Some inf) (Some r)), tr, r, (u_success (o p)).
  split; [exact Add|]. split; [unfold p; rewrite build_length, combine_length; lia|]. split.
  { intros i Li. assert (G := get_named p 0 i Nm). cbn [Nat.add] in G. rewrite G by (unfold p; rewrite build_length, combine_length; lia). unfold p. rewrite build_nth; auto. }
  split; [|split; [reflexivity|rewrite Ep; apply assign_filled; lia]].
  destruct Hf as [Hf|[Hf Hi]]; rewrite Hf; [rewrite Hl, Nat.eqb_refl|rewrite <- Hi]; rewrite Er; reflexivity.
Qed.

(** * The curve *)
(** C96.  A fit that is possible is drawn: from the smallest to the largest position shown, ten points per point of the data at
    equal steps, the function given at the parameters the fit ended with - the ones held fixed at their starting values, the
    others, in order, those the optimiser ended with; what it minimised are (y - f(x)) / error of the points shown.  The
    annotation is chi squared and the parameters to three decimals; the colour is the first letter of the format. *)
Theorem C96_curve : forall w d x y show_err options o sigma xs ys es f a l c,
  shows w d x y sigma xs ys es -> xs <> [] -> o_function o = Some f -> o_p o = Some a -> a = AList l \/ a = AArray l ->
  (forall b, o_fixp o = Some b -> List.length b = List.length l) -> (exists i, (i < List.length l)%nat /\ held o i = false) ->
  (options = [] /\ c = "r"%char \/ exists s, In ("fmt"%string, String c s) options /\ NoDup (map fst options)) ->
  exists r p t v lo hi chi ps options',
    differences f xs ys es r /\
    List.length p = List.length l /\ (forall i, (i < List.length l)%nat -> get (name i) p = Ok (mkParam (nth i l 0) (negb (held o i)) None None)) /\
    plot_line w d x y show_err options o sigma = ([Points (combine xs ys) (if show_err then Some es else None); Curve c t (f v t); Annotation chi ps], options', Ok tt) /\
    In lo xs /\ In hi xs /\ (forall z, In z xs -> lo <= z <= hi) /\
    List.length t = (10 * List.length xs)%nat /\ hd_error t = Some lo /\ last t 0 = hi /\
    (forall i, (S i < List.length t)%nat -> nth (S i) t 0 - nth i t 0 = (hi - lo) / (INR (List.length t) - 1)) /\
    List.length v = List.length l /\
    (forall i, (i < List.length l)%nat -> nth i v 0 = if held o i then nth i l 0 else u_final (minimiser w r p) (List.length (filter (fun j => negb (held o j)) (seq 0 i)))) /\
    within 3 chi (u_chisqr (minimiser w r p)) /\ Forall2 (within 3) ps v.
Proof.
  intros w d x y se options o sigma xs ys es f a l c Sh Ne Ef Ea Ha Hb Hfree Hc.
  destruct (shows_model _ _ _ _ _ _ _ _ Sh) as (Cx & ys0 & Cy & Ey).
  set (r := residuals f xs ys es). set (m := minimiser w r). set (inf := constraints o l).
  destruct (fit_from m (mkFitter (Some tt) None (option_map (map (fun b => Some (mkInfo None (Some b)))) (o_fixp o)) None) a l inf eq_refl Ha (constraints_in_force o l) (constraints_length o l Hb) (constraints_documented o l)) as (p & f' & tr & rr & s & Add & Lp & Gp & Fit & Res & Fil).
  { destruct Hfree as (i & Li & Hi). exists i. split; [exact Li|]. unfold inf. rewrite constraints_free, Hi. reflexivity. }
  destruct (least_spec xs Ne) as (lo & Elo & Ilo & Mlo). destruct (greatest_spec xs Ne) as (hi & Ehi & Ihi & Mhi).
  set (t := linspace lo hi (List.length xs * 10)).
  assert (L0 : (1 <= List.length xs)%nat) by (destruct xs; [contradiction|cbn; lia]).
  assert (Lt : List.length t = (List.length xs * 10)%nat) by (unfold t, linspace; rewrite map_length, seq_length; reflexivity).
  assert (Nt : forall i, (i < List.length xs * 10)%nat -> nth i t 0 = lo + INR i * ((hi - lo) / INR (List.length xs * 10 - 1))) by (intros; apply linspace_nth; assumption).
  assert (Lv : List.length (o_params rr) = List.length l) by apply Fil.
  assert (Em : (match option_map (map (fun b : bool => Some (mkInfo None (Some b)))) (o_fixp o) with Some i => i | None => repeat None (List.length l) end) = inf) by (unfold inf, constraints; destruct (o_fixp o); reflexivity).
  assert (Een : entries a = l) by (destruct Ha as [->| ->]; reflexivity).
  assert (Try : forall op s', ToolsModel.lookup "fmt" op = Some (String c s') -> try_fit w o f xs ys es op = ([Curve c t (f (o_params rr) t); Annotation (fixed 3 (u_chisqr (m p))) (map (fixed 3) (o_params rr))], Ok tt)).
  { intros op s' El. unfold try_fit. rewrite Ea. fold r. fold m. rewrite Fit, Res, Een, Em, Add, Elo, Ehi, El. reflexivity. }
  exists r, p, t, (o_params rr), lo, hi, (fixed 3 (u_chisqr (m p))), (map (fixed 3) (o_params rr)), (match options with [] => [("fmt", "rs")%string] | _ => options end).
  split; [apply residuals_differences|]. split; [exact Lp|]. split.
  { intros i Li. rewrite (Gp i Li). unfold inf. rewrite !constraints_bound, constraints_free. reflexivity. }
  split.
  { unfold plot_line. rewrite Cx, Cy. rewrite <- Ey. unfold no_options. rewrite Ef. destruct Hc as [[-> ->]|(s' & I & N)].
    - rewrite (Try [("fmt", "rs")%string] "s"%string eq_refl). reflexivity.
    - pose proof (lookup_in _ _ _ I N) as El. destruct options as [|q options]; [destruct I|]. rewrite (Try _ _ El). reflexivity. }
  split; [exact Ilo|]. split; [exact Ihi|]. split; [intros z Iz; split; [apply Mlo|apply Mhi]; exact Iz|]. split; [lia|]. split.
  { assert (E0 := Nt 0%nat ltac:(lia)). destruct t as [|t0 t']; [cbn in Lt; lia|]. cbn in E0 |- *. f_equal. rewrite E0. lra. }
  assert (P1 : INR (List.length xs * 10 - 1) <> 0) by (apply not_0_INR; lia).
  split.
  { replace (last t 0) with (nth (List.length t - 1) t 0). 2:{ apply nth_last. }
    rewrite Nt by lia. rewrite Lt. field. exact P1. }
  split.
  { intros i Li. rewrite Lt in Li |- *. rewrite !Nt by lia. rewrite (S_INR i). rewrite (minus_INR (List.length xs * 10) 1) in * by lia. change (INR 1) with 1 in *. field. exact P1. }
  split; [exact Lv|]. split.
  { intros i Li. destruct Fil as [_ Fil]. rewrite (Fil i Li). unfold inf. rewrite constraints_free. unfold m, rank. destruct (held o i); cbn [negb]; [reflexivity|]. do 2 f_equal. apply filter_ext. intros j. apply constraints_free. }
  split; [apply DescribeProps.fixed_near|]. generalize (o_params rr). intros v. induction v as [|z v IH]; cbn [map]; constructor; [apply DescribeProps.fixed_near|exact IH].
Qed.
Print Assumptions C96_curve.

(** * What is drawn in any case, and the failures *)
(** C96.  The points come first whatever the fit does; without fit options they are all; a fit without function is a KeyError, any
    other one that cannot be done or drawn a plain Exception, and nothing of it is drawn. *)
Theorem C96_points : forall w d x y show_err options o sigma xs ys es, shows w d x y sigma xs ys es ->
  exists more r, plot_line w d x y show_err options o sigma = (Points (combine xs ys) (if show_err then Some es else None) :: more, match options with [] => [("fmt", "rs")%string] | _ => options end, r) /\
    (o_function o = None -> o_p o = None -> o_fixp o = None -> more = [] /\ r = Ok tt) /\
    (r = Ok tt \/ r = Err KeyError \/ r = Err GenericException) /\ (r <> Ok tt -> more = []) /\
    (r = Err KeyError <-> o_function o = None /\ (o_p o <> None \/ o_fixp o <> None)).
Proof.
  intros w d x y se options o sigma xs ys es Sh. destruct (shows_model _ _ _ _ _ _ _ _ Sh) as (Cx & ys0 & Cy & Ey).
  unfold plot_line. rewrite Cx, Cy, <- Ey. set (op := match options with [] => [("fmt", "rs")%string] | _ => options end).
  destruct (no_options o) eqn:No.
  - exists [], (Ok tt). unfold no_options in No. destruct (o_function o), (o_p o), (o_fixp o); try discriminate. repeat split; auto; try discriminate; try contradiction. intros [_ [H|H]]; contradiction.
  - destruct (o_function o) as [f|] eqn:Ef.
    + assert (T : forall o', exists more r, try_fit w o f xs ys es o' = (more, r) /\ (r = Ok tt \/ r = Err GenericException) /\ (r <> Ok tt -> more = [])).
      { intros o'. unfold try_fit. destruct (o_p o) as [a|]; [|do 2 eexists; split; [reflexivity|split; auto]]. destruct (fit _ _ a) as [[g tr] [s|e]]; [|do 2 eexists; split; [reflexivity|split; auto]].
        destruct (f_result g); [|do 2 eexists; split; [reflexivity|split; auto]]. destruct (add_all _ _ _); [|do 2 eexists; split; [reflexivity|split; auto]]. destruct (extreme Rmin xs); [|do 2 eexists; split; [reflexivity|split; auto]]. destruct (extreme Rmax xs); [|do 2 eexists; split; [reflexivity|split; auto]].
        destruct (ToolsModel.lookup "fmt" o') as [[|c s']|]; do 2 eexists; (split; [reflexivity|split; [auto|intros H; try reflexivity; contradiction]]). }
      destruct (T op) as (more & r & E & Hr & Hm). rewrite E. exists more, r. cbn [app]. split; [reflexivity|]. split; [discriminate|]. split; [tauto|]. split; [exact Hm|]. split; [intros ->; destruct Hr; discriminate|intros [H _]; discriminate].
    + exists [], (Err KeyError). split; [reflexivity|]. split; [intros _ Ep Ex; unfold no_options in No; rewrite Ef, Ep, Ex in No; discriminate|]. split; [auto|]. split; [auto|]. split; [|reflexivity].
      intros _. split; [reflexivity|]. unfold no_options in No. rewrite Ef in No. destruct (o_p o); [left; discriminate|]. destruct (o_fixp o); [right; discriminate|discriminate].
Qed.
Print Assumptions C96_points.

Lemma fit_ok_shape (o : optimiser) (f : fitter unit) a f' tr s : fit o f a = (f', tr, Ok s) -> exists l, (a = AList l \/ a = AArray l) /\ (forall inf, f_parinfo f = Some inf -> List.length inf = List.length l).
Proof.
  unfold fit. destruct a as [l|l|l| |]; cbn [set_params0 f_params0 f_parinfo f_data f_result entries]; try discriminate; intros H.
  - exists l. split; [auto|]. intros inf E. rewrite E in H. destruct (Nat.eqb_spec (List.length l) (List.length inf)); [auto|discriminate].
  - exfalso. assert (G : forall inf, fit_core o (mkFitter (f_data f) (Some (ATuple l)) (Some inf) (f_result f)) (ATuple l) inf = ([], match snd (fit_core o (mkFitter (f_data f) (Some (ATuple l)) (Some inf) (f_result f)) (ATuple l) inf) with Ok _ => Err TypeError | e => e end)).
    { intros inf. unfold fit_core. destruct (add_all _ _ _); [|reflexivity]. destruct (forallb _ _); [reflexivity|]. cbn [f_data]. destruct (f_data f); reflexivity. }
    destruct (f_parinfo f) as [inf|]; [destruct (Nat.eqb _ _); [|discriminate]|]; rewrite G in H; destruct (snd _); discriminate.
  - exists l. split; [auto|]. intros inf E. rewrite E in H. destruct (Nat.eqb_spec (List.length l) (List.length inf)); [auto|discriminate].
  - destruct (f_parinfo f); discriminate.
Qed.
(** C96.  Exactly when the fit is drawn: some point is shown, the starting values are a list or an array, the marks of fixed
    parameters are as many, one parameter at least is free, and the plot options have a format that is not empty. *)
Theorem C96_drawn : forall w d x y show_err options o sigma xs ys es f, shows w d x y sigma xs ys es -> o_function o = Some f -> NoDup (map fst options) ->
  (snd (plot_line w d x y show_err options o sigma) = Ok tt <->
   xs <> [] /\ (exists l, (o_p o = Some (AList l) \/ o_p o = Some (AArray l)) /\ (forall b, o_fixp o = Some b -> List.length b = List.length l) /\ exists i, (i < List.length l)%nat /\ held o i = false) /\
   (options = [] \/ exists c s, In ("fmt"%string, String c s) options)).
Proof.
  intros w d x y se options o sigma xs ys es f Sh Ef Nd. split.
  - destruct (shows_model _ _ _ _ _ _ _ _ Sh) as (Cx & ys0 & Cy & Ey). unfold plot_line. rewrite Cx, Cy, <- Ey. unfold no_options. rewrite Ef.
    unfold try_fit. destruct (o_p o) as [a|] eqn:Ea; [|discriminate].
    set (f0 := mkFitter (Some tt) None (option_map (map (fun b => Some (mkInfo None (Some b)))) (o_fixp o)) None).
    destruct (fit (minimiser w (residuals f xs ys es)) f0 a) as [[g tr] [s|e]] eqn:Fit; [|discriminate].
    destruct (fit_ok_shape _ _ _ _ _ _ Fit) as (l & Ha & Hl).
    assert (Hb : forall b, o_fixp o = Some b -> List.length b = List.length l). { intros b Eb. specialize (Hl (map (fun b => Some (mkInfo None (Some b))) b)). rewrite map_length in Hl. apply Hl. unfold f0. cbn [f_parinfo]. rewrite Eb. reflexivity. }
    destruct (f_result g); [|discriminate]. destruct (add_all _ _ _); [|discriminate]. destruct xs as [|x0 xs]; [discriminate|]. cbn [extreme].
    intros H. split; [discriminate|]. split.
    + exists l. split; [destruct Ha as [->| ->]; auto|]. split; [exact Hb|].
      destruct (existsb (fun i => negb (held o i)) (seq 0 (List.length l))) eqn:Ex.
      * apply existsb_exists in Ex as (i & I & Hi). apply in_seq in I. exists i. split; [lia|]. destruct (held o i); [discriminate|reflexivity].
      * exfalso. destruct (C39_all_fixed unit (minimiser w (residuals f (x0 :: xs) ys es)) f0 a l (constraints o l)) as (f1 & E1 & _); [tauto|apply constraints_in_force|apply constraints_length, Hb|apply constraints_documented| |rewrite E1 in Fit; discriminate].
        intros i Li. rewrite constraints_free. destruct (negb (held o i)) eqn:Hi; [|reflexivity]. assert (Et : existsb (fun i => negb (held o i)) (seq 0 (List.length l)) = true) by (apply existsb_exists; exists i; split; [apply in_seq; lia|exact Hi]). congruence.
    + destruct options as [|q options]; [left; reflexivity|right]. destruct (ToolsModel.lookup "fmt" (q :: options)) as [[|c s']|] eqn:El; [discriminate| |discriminate].
      exists c, s'. unfold ToolsModel.lookup in El. destruct (find _ _) as [[k v]|] eqn:Fd; [|discriminate]. apply find_some in Fd as [I E]. cbn in E. apply String.eqb_eq in E. subst k. cbn in El. injection El as ->. exact I.
  - intros (Ne & (l & Hp & Hb & Hf) & Ho).
    assert (Ha : exists a, o_p o = Some a /\ (a = AList l \/ a = AArray l)) by (destruct Hp as [E|E]; eexists; split; eauto). destruct Ha as (a & Ea & Ha).
    destruct Ho as [->|(c & s & I)].
    + destruct (C96_curve w d x y se [] o sigma xs ys es f a l "r"%char Sh Ne Ef Ea Ha Hb Hf) as (? & ? & ? & ? & ? & ? & ? & ? & ? & _ & _ & _ & E & _); [left; split; reflexivity|]. rewrite E. reflexivity.
    + destruct (C96_curve w d x y se options o sigma xs ys es f a l c Sh Ne Ef Ea Ha Hb Hf) as (? & ? & ? & ? & ? & ? & ? & ? & ? & _ & _ & _ & E & _); [right; exists s; split; assumption|]. rewrite E. reflexivity.
Qed.
Print Assumptions C96_drawn.

(** A straight line through the points (0, 1), (1, 3), (2, 5), the second parameter held fixed. *)
Definition line : function := fun p xs => map (fun x => nth 0 p 0 + nth 1 p 0 * x) xs.
Definition points := mkDataset [("h"%string, [0; 1; 2])] [1; 3; 5] [1; 1; 1].
Definition world (t c : R) := mkSur (fun _ l => l) (fun _ _ => mkRun [] (fun _ => t) c (fun _ => 0) 3 true).
Definition fitting := mkOptions (Some line) (Some (AList [0; 2])) (Some [false; true]).
Example points_shown w : shows w points "h" "intensity" 0 [0; 1; 2] [1; 3; 5] [1; 1; 1].
Proof. split; [left; reflexivity|]. split; [repeat constructor; intros []|]. exists [1; 3; 5]. split; [reflexivity|]. split; [lra|]. left. repeat split. Qed.
Example C96_curve_case : exists t chi ps options', plot_line (world 1 0) points "h" "intensity" true [] fitting 0 = ([Points [(0, 1); (1, 3); (2, 5)] (Some [1; 1; 1]); Curve "r" t (line [1; 2] t); Annotation chi ps], options', Ok tt) /\ List.length t = 30%nat.
Proof.
  destruct (C96_curve (world 1 0) points "h" "intensity" true [] fitting 0 _ _ _ line (AList [0; 2]) [0; 2] "r"%char (points_shown _)) as (r & p & t & v & lo & hi & chi & ps & o' & _ & _ & _ & E & _ & _ & _ & Lt & _ & _ & _ & Lv & Hv & _); try reflexivity; try discriminate.
  - left; reflexivity.
  - intros b H. injection H as <-. reflexivity.
  - exists 0%nat. split; [cbn; lia|reflexivity].
  - left. split; reflexivity.
  - assert (V : v = [1; 2]). { destruct v as [|a [|b [|]]]; cbn in Lv; try discriminate. pose proof (Hv 0%nat ltac:(cbn; lia)) as H0. pose proof (Hv 1%nat ltac:(cbn; lia)) as H1. cbn in H0, H1. subst. reflexivity. }
    subst v. exists t, chi, ps, o'. split; [exact E|exact Lt].
Qed.
(** C96, the other expectation: a fit that succeeds is drawn whatever the options of the plot are; false: with a colour but no format
    it ends in an exception, although the same fit alone succeeds. *)
Theorem C96_format_refuted : exists w d options o, shows w d "h" "intensity" 0 [0; 1; 2] [1; 3; 5] [1; 1; 1] /\ snd (plot_line w d "h" "intensity" true [] o 0) = Ok tt /\ options = [("color", "k")%string] /\
  snd (plot_line w d "h" "intensity" true options o 0) = Err GenericException.
Proof.
  exists (world 1 0), points, [("color", "k")%string], fitting. split; [apply points_shown|]. split.
  - destruct C96_curve_case as (t & chi & ps & o' & E & _). rewrite E. reflexivity.
  - split; [reflexivity|]. destruct (C96_points (world 1 0) points "h" "intensity" true [("color", "k")%string] fitting 0 _ _ _ (points_shown _)) as (more & r & E & _ & Hr & _ & Hk).
    pose proof (C96_drawn (world 1 0) points "h" "intensity" true [("color", "k")%string] fitting 0 _ _ _ line (points_shown _) eq_refl ltac:(repeat constructor; intros [])) as D. rewrite E in D |- *. cbn [snd] in D |- *.
    destruct Hr as [->|[->| ->]]; [|exfalso; destruct Hk as [Hk _]; destruct (Hk eq_refl); discriminate|reflexivity].
    exfalso. destruct D as [D _]. destruct (D eq_refl) as (_ & _ & [H|(c & s & [H|[]])]); discriminate.
Qed.
Print Assumptions C96_format_refuted.

(** Properties of crystal names (C31), argument cleaning (C32) and chop (C33). *)
From Coq Require Import String Ascii List ZArith QArith Reals Qreals Lra Lia Bool.
From Verif Require Import Base ToolsModel NumBounds.
Import ListNotations.
Local Open Scope R_scope.

(** ** C31 *)
(** The table in the documentation of GetTau (tools.py:163-195). *)
Definition documented : list (string * Q) :=
  [("Be(002)", 350702 # 100000); ("Co0.92Fe0.08(200)", 354782 # 100000); ("Cu(002)", 347714 # 100000); ("Cu(111)", 299913 # 100000);
   ("Cu(220)", 491642 # 100000); ("Cu2MnAl(111)", 182810 # 100000); ("Ge(111)", 192366 # 100000); ("Ge(220)", 314131 # 100000);
   ("Ge(311)", 368351 # 100000); ("Ge(511)", 576968 # 100000); ("Ge(533)", 728063 # 100000); ("PG(002)", 187325 # 100000);
   ("PG(004)", 374650 # 100000); ("PG(110)", 549806 # 100000); ("Si(111)", 200421 # 100000)]%string%Q.
Definition near (e : R) (x : R) (q : Q) : Prop := Rabs (x - Q2R q) <= e.
(** Each entry of the code's table with its documented row. *)
Lemma choice_documented k t : In (k, t) choices -> exists n q, In (n, q) documented /\ lower n = k /\ near (1 / 100000) t q.
Proof.
  assert (P := PI_bounds). unfold choices. intros I.
  assert (X : forall x q, - (1 / 100000) <= x - Q2R q <= 1 / 100000 -> near (1 / 100000) x q) by (intros; unfold near; now apply Rabs_le).
  assert (Y : forall y, 0 < y -> 2 * (314159265 / 100000000) / y < 2 * PI / y < 2 * (314159266 / 100000000) / y).
  { intros y Py. unfold Rdiv. assert (0 < / y) by now apply Rinv_0_lt_compat. split; apply Rmult_lt_compat_r; lra. }
  Ltac doc n q := exists n%string, q%Q; split; [unfold documented; cbn [In]; repeat (first [left; reflexivity|right])|split; [reflexivity|]].
  Ltac num X Y := apply X; unfold Q2R; cbn [Qnum Qden]; try lra; match goal with |- context [2 * PI / ?y] => assert (Z := Y y ltac:(lra)); lra end.
  cbn [In] in I. repeat match type of I with _ \/ _ => destruct I as [I|I] | False => contradiction end; injection I as <- <-.
  - doc "PG(002)"%string (187325 # 100000). num X Y.
  - doc "PG(004)"%string (374650 # 100000). num X Y.
  - doc "Ge(111)"%string (192366 # 100000). num X Y.
  - doc "Ge(220)"%string (314131 # 100000). num X Y.
  - doc "Ge(311)"%string (368351 # 100000). num X Y.
  - doc "Be(002)"%string (350702 # 100000). num X Y.
  - doc "PG(110)"%string (549806 # 100000). num X Y.
  - doc "Cu2MnAl(111)"%string (182810 # 100000). num X Y.
  - doc "Co0.92Fe0.08(200)"%string (354782 # 100000). num X Y.
  - doc "Ge(511)"%string (576968 # 100000). num X Y.
  - doc "Ge(533)"%string (728063 # 100000). num X Y.
  - doc "Si(111)"%string (200421 # 100000). num X Y.
  - doc "Cu(111)"%string (299913 # 100000). num X Y.
  - doc "Cu(002)"%string (347714 # 100000). num X Y.
  - doc "Cu(220)"%string (491642 # 100000). num X Y.
Qed.
Lemma documented_listed : forallb (fun p => existsb (fun k => String.eqb k (lower (fst p))) (map fst choices)) documented = true.
Proof. vm_compute. reflexivity. Qed.
(** Documented names are distinct, and so are their values, by more than 0.02. *)
Lemma documented_apart : forallb (fun p => forallb (fun p' => if String.eqb (lower (fst p)) (lower (fst p')) then String.eqb (fst p) (fst p')
    else negb (Qle_bool (snd p - snd p') (1 # 50)) || negb (Qle_bool (snd p' - snd p) (1 # 50))) documented) documented = true.
Proof. vm_compute. reflexivity. Qed.
Lemma documented_inj n q n' q' : In (n, q) documented -> In (n', q') documented -> lower n = lower n' -> n = n' /\ q = q'.
Proof.
  intros I I' E. assert (T := documented_apart). rewrite forallb_forall in T. specialize (T _ I). rewrite forallb_forall in T. specialize (T _ I'). cbn [fst snd] in T.
  rewrite E, String.eqb_refl in T. apply String.eqb_eq in T. subst n'. split; auto.
  assert (N : NoDup (map fst documented)). { unfold documented. cbn [map fst]. repeat constructor; cbn [In]; intuition discriminate. }
  clear - I I' N. induction documented as [|[a b] l IH]; [contradiction|]. cbn [map fst] in N. inversion N; subst. destruct I as [I|I], I' as [I'|I'].
  - congruence.
  - injection I as -> ->. exfalso. apply H1. apply (in_map fst) in I'. exact I'.
  - injection I' as -> ->. exfalso. apply H1. apply (in_map fst) in I. exact I.
  - auto.
Qed.
Lemma lookup_in {A} k (l : list (string * A)) v : lookup k l = Some v -> In (k, v) l.
Proof. unfold lookup. destruct (find _ l) as [[a b]|] eqn:E; [|discriminate]. intros H. injection H as <-. apply find_some in E. destruct E as [I E]. cbn in E. apply String.eqb_eq in E. now subst. Qed.
Lemma lookup_some {A} k (l : list (string * A)) : In k (map fst l) -> exists v, lookup k l = Some v.
Proof.
  intros I. unfold lookup. destruct (find _ l) as [p|] eqn:E; [cbn; eauto|]. apply in_map_iff in I. destruct I as (p & <- & I). assert (X := find_none _ _ E p I). cbn in X. rewrite String.eqb_refl in X. discriminate.
Qed.

(** C31.  A name denotes a crystal exactly when it is documented, up to case, and its tau is the documented one. *)
Theorem C31_names : forall who s,
  (forall n q, In (n, q) documented -> lower s = lower n -> exists t, get_tau who (TName s) = Ok (Some t) /\ Rabs (t - Q2R q) <= 1 / 100000 /\ 0 < t) /\
  (forall t, get_tau who (TName s) = Ok (Some t) -> exists n q, In (n, q) documented /\ lower s = lower n /\ Rabs (t - Q2R q) <= 1 / 100000) /\
  ((forall n q, In (n, q) documented -> lower s <> lower n) ->
     get_tau who (TName s) = match who with CMonochromator => Err MonochromatorError | CAnalyzer => Err AnalyzerError | COtherSelf => Ok None | CNoSelf => Err KeyError end).
Proof.
  intros who s. unfold get_tau. split; [|split].
  - intros n q I E. assert (T := documented_listed). rewrite forallb_forall in T. specialize (T _ I). cbn [fst] in T. apply existsb_exists in T. destruct T as (k & K & Ek). apply String.eqb_eq in Ek. subst k.
    rewrite <- E in K. destruct (lookup_some _ _ K) as (t & L). rewrite L. exists t. apply lookup_in in L. destruct (choice_documented _ _ L) as (n' & q' & I' & E' & N).
    destruct (documented_inj n q n' q' I I') as [<- <-]; [congruence|]. split; auto. split; [exact N|].
    assert (B : 1 < Q2R q). { assert (T : forallb (fun p => negb (Qle_bool (snd p) 1)) documented = true) by reflexivity. rewrite forallb_forall in T. specialize (T _ I). cbn [snd] in T. apply negb_true_iff in T.
      destruct (Qlt_le_dec 1 q) as [L'|L']; [apply Qlt_Rlt in L'; rewrite RMicromega.Q2R_1 in L'; exact L'|apply Qle_bool_iff in L'; congruence]. }
    apply Rabs_def2b in N || idtac. unfold near in N. assert (M := Rle_abs (- (t - Q2R q))). rewrite Rabs_Ropp in M. lra.
  - intros t H. destruct (lookup (lower s) choices) as [x|] eqn:L; [|destruct who; discriminate]. injection H as <-. apply lookup_in in L. destruct (choice_documented _ _ L) as (n & q & I & E & N).
    exists n, q. auto.
  - intros N. destruct (lookup (lower s) choices) as [x|] eqn:L; [|reflexivity]. apply lookup_in in L. destruct (choice_documented _ _ L) as (n & q & I & E & _). exfalso. exact (N n q I (eq_sym E)).
Qed.
Print Assumptions C31_names.
Example C31_ex : In ("PG(002)"%string, (187325 # 100000)%Q) documented /\ lower "pG(002)" = lower "PG(002)".
Proof. split; [unfold documented; cbn; tauto|reflexivity]. Qed.

(** C31.  Labels: the name of the closest crystal if it is within 5e-4, otherwise empty. *)
Lemma closest_spec l : forall b, In (closest b l) (b :: l) /\ forall p, In p (b :: l) -> snd (closest b l) <= snd p.
Proof.
  induction l as [|p l IH]; intros b; cbn [closest]; [split; [now left|intros p [<-|[]]; lra]|]. destruct (Rlt_dec (snd p) (snd b)) as [L|L].
  - destruct (IH p) as [I M]. split; [right; exact I|]. intros r [<-|R]; [eapply Rle_trans; [apply M; now left|lra]|apply M, R].
  - destruct (IH b) as [I M]. split; [destruct I as [I|I]; [now left|right; now right]|]. intros r [<-|[<-|R]]; [apply M; now left|eapply Rle_trans; [apply M; now left|lra]|apply M; now right].
Qed.
Theorem C31_label : forall x,
  (get_label x = ""%string /\ forall k t, In (k, t) choices -> 5 / 10000 <= Rabs (t - x)) \/
  (exists t, In (get_label x, t) choices /\ Rabs (t - x) < 5 / 10000 /\ forall k' t', In (k', t') choices -> Rabs (t - x) <= Rabs (t' - x)).
Proof.
  intros x. unfold get_label. set (d := map (fun p => (fst p, Rabs (snd p - x))) choices). assert (Hd : d = map (fun p => (fst p, Rabs (snd p - x))) choices) by reflexivity.
  clearbody d. destruct d as [|p r]; [discriminate|]. destruct (closest_spec r p) as [I M]. set (b := closest p r) in *.
  assert (X : forall k t, In (k, t) choices -> snd b <= Rabs (t - x)). { intros k t J. apply (M (k, Rabs (t - x))). rewrite Hd. apply in_map_iff. exists (k, t). auto. }
  rewrite Hd in I. apply in_map_iff in I. destruct I as ([k t] & Eb & Ic). cbn [fst snd] in Eb. rewrite <- Eb in X |- *. cbn [fst snd] in *. rewrite Rabs_Rabsolu.
  destruct (Rlt_dec (Rabs (t - x)) (5 / 10000)) as [L|L].
  - right. exists t. auto.
  - left. split; auto. intros k' t' J. specialize (X k' t' J). lra.
Qed.
Print Assumptions C31_label.
(** C31.  Any number within 5e-4 of a crystal's tau is recognised as that crystal; in particular labels and tau values are inverse. *)
Theorem C31_label_name : forall k t x, In (k, t) choices -> Rabs (t - x) < 5 / 10000 -> get_label x = k.
Proof.
  intros k t x I L. destruct (C31_label x) as [[_ N]|(t' & I' & L' & M)]; [specialize (N k t I); lra|].
  destruct (choice_documented _ _ I) as (n & q & In_ & En & Nn). destruct (choice_documented _ _ I') as (n' & q' & In' & En' & Nn'). unfold near in *.
  assert (T := documented_apart). rewrite forallb_forall in T. specialize (T _ In_). rewrite forallb_forall in T. specialize (T _ In'). cbn [fst snd] in T.
  destruct (String.eqb (lower n) (lower n')) eqn:E; [apply String.eqb_eq in E; congruence|]. exfalso.
  assert (D : Rabs (Q2R q - Q2R q') < 2 / 1000).
  { replace (Q2R q - Q2R q') with ((- (t - Q2R q) + (t - x)) + (- (t' - x) + (t' - Q2R q'))) by ring. eapply Rle_lt_trans; [apply Rabs_triang|].
    assert (A := Rabs_triang (- (t - Q2R q)) (t - x)). assert (B := Rabs_triang (- (t' - x)) (t' - Q2R q')). rewrite Rabs_Ropp in A, B. lra. }
  apply Rabs_def2 in D. apply orb_prop in T. assert (Z : forall a b, negb (Qle_bool (a - b) (1 # 50)) = true -> 1 / 50 < Q2R a - Q2R b).
  { intros a b H. apply negb_true_iff in H. destruct (Qlt_le_dec (1 # 50) (a - b)) as [W|W]; [apply Qlt_Rlt in W; rewrite Q2R_minus in W; unfold Q2R at 1 in W; cbn [Qnum Qden] in W; lra|apply Qle_bool_iff in W; congruence]. }
  destruct T as [T|T]; apply Z in T; lra.
Qed.
Print Assumptions C31_label_name.
Example C31_label_ex : In (lower "pg(002)", 187325 / 100000) choices /\ Rabs (187325 / 100000 - 1873 / 1000) < 5 / 10000.
Proof. split; [now left|]. apply Rabs_def1; lra. Qed.

(** C31.  tau and d of a crystal: after any history of assignments tau is the value assigned last; if that
    assignment was accepted d is 2 pi over it; rejected ones leave d alone. *)
Definition accepted (who : caller) (t : tau_arg) (x : R) : Prop := get_tau who t = Ok (Some x) /\ x <> 0.
Lemma spacing_ok who t d : spacing who t = Ok d <-> exists x, accepted who t x /\ d = 2 * PI / x.
Proof.
  unfold spacing, accepted. destruct (get_tau who t) as [[x|]|e]; cbn [bind].
  - destruct (Req_EM_T x 0) as [Z|Z].
    + split; [discriminate|]. intros (y & [E N] & _). congruence.
    + split; [intros H; injection H as <-; exists x; auto|]. intros (y & [E N] & ->). congruence.
  - split; [discriminate|]. intros (y & [E _] & _). discriminate.
  - split; [discriminate|]. intros (y & [E _] & _). discriminate.
Qed.
Lemma last_cons {A} (l : list A) t t1 : last l t = last (t :: l) t1.
Proof. revert t t1. induction l as [|x l IH]; intros t t1; [reflexivity|]. change (last (t :: x :: l) t1) with (last (x :: l) t1). now rewrite <- (IH x t1), <- (IH x t). Qed.
Theorem C31_history : forall who t0 m l, make_mono who t0 = Ok m -> let m' := assignments who m l in
  mo_tau m' = last l t0 /\ (forall x, accepted who (mo_tau m') x -> mo_d m' * x = 2 * PI) /\
  (exists t x, In t (t0 :: l) /\ accepted who t x /\ mo_d m' = 2 * PI / x).
Proof.
  intros who t0 m l H. unfold make_mono in H. destruct (spacing who t0) as [d|] eqn:S; [|discriminate]. injection H as <-. cbv zeta.
  assert (X : forall l t1 m1, mo_tau m1 = t1 -> (forall d, spacing who t1 = Ok d -> mo_d m1 = d) -> mo_tau (assignments who m1 l) = last l t1 /\
     (forall d, spacing who (mo_tau (assignments who m1 l)) = Ok d -> mo_d (assignments who m1 l) = d) /\ (mo_d (assignments who m1 l) = mo_d m1 \/ exists t, In t l /\ spacing who t = Ok (mo_d (assignments who m1 l)))).
  { clear. induction l as [|t l IH]; intros t1 m1 E1 E2; cbn [assignments].
    - split; [exact E1|]. split; [intros d Hd; apply E2; congruence|now left].
    - unfold set_tau. destruct (spacing who t) as [d|e] eqn:S; cbn [fst].
      + destruct (IH t (mkMono t d)) as (A & B & C); [reflexivity|intros d' Hd'; cbn; congruence|]. split; [rewrite A; apply last_cons|]. split; [exact B|].
        right. destruct C as [C|(t' & I & C)]; [exists t; split; [now left|rewrite C; exact S]|exists t'; split; [now right|exact C]].
      + destruct (IH t (mkMono t (mo_d m1))) as (A & B & C); [reflexivity|intros d' Hd'; congruence|]. split; [rewrite A; apply last_cons|]. split; [exact B|].
        destruct C as [C|(t' & I & C)]; [now left|right; exists t'; split; [now right|exact C]]. }
  destruct (X l t0 (mkMono t0 d) eq_refl) as (A & B & C); [intros d' Hd'; cbn; congruence|]. split; [exact A|]. split.
  - intros x Ax. assert (Z := B (2 * PI / x)). rewrite Z; [destruct Ax as [_ N]; field; exact N|]. apply spacing_ok. exists x. auto.
  - destruct C as [C|(t & I & C)].
    + apply spacing_ok in S. destruct S as (x & Ax & Ed). exists t0, x. split; [now left|]. split; [exact Ax|]. rewrite C. exact Ed.
    + apply spacing_ok in C. destruct C as (x & Ax & Ed). exists t, x. split; [now right|]. auto.
Qed.
Print Assumptions C31_history.
Theorem C31_rejected_refuted : exists m t m', make_mono CMonochromator (TName "PG(002)") = Ok m /\ set_tau CMonochromator m t = (m', Err MonochromatorError) /\
  mo_tau m' = t /\ t <> mo_tau m /\ mo_d m' = mo_d m /\ mo_d m' * (187325 / 100000) = 2 * PI.
Proof.
  assert (S : spacing CMonochromator (TName "PG(002)") = Ok (2 * PI / (187325 / 100000))).
  { apply spacing_ok. exists (187325 / 100000). split; [split; [reflexivity|lra]|reflexivity]. }
  exists (mkMono (TName "PG(002)") (2 * PI / (187325 / 100000))), (TName "PG(003)"), (mkMono (TName "PG(003)") (2 * PI / (187325 / 100000))).
  unfold make_mono. rewrite S. split; [reflexivity|]. split; [reflexivity|]. split; [reflexivity|]. split; [discriminate|]. split; [reflexivity|]. cbn. field.
Qed.
Print Assumptions C31_rejected_refuted.

(** ** C32 *)
Section clean.
Context {A : Type}.
Lemma longest_spec (l : list (list A)) n : longest l = Ok n -> l <> [] /\ (forall x, In x l -> (length x <= n)%nat) /\ exists x, In x l /\ length x = n.
Proof.
  unfold longest. destruct l as [|y l]; [discriminate|]. intros H. injection H as <-. split; [discriminate|].
  revert y. induction l as [|z l IH]; intros y; cbn [map fold_right]; [split; [intros x [<-|[]]; lia|exists y; split; [now left|lia]]|].
  destruct (IH z) as [U (x & I & E)]. cbn [map fold_right] in *. split.
  - intros w [<-|W]; [lia|]. specialize (U w W). lia.
  - destruct (Nat.max_spec (length y) (Nat.max (length z) (fold_right Nat.max 0%nat (map (@length A) l)))) as [[_ ->]|[_ ->]]; [exists x; split; [now right|exact E]|exists y; split; [now left|reflexivity]].
Qed.
Lemma pad_spec n (l : list A) r : pad n l = Ok r -> (length l <= n)%nat -> length r = n /\ exists k, r = l ++ k /\ forall d x, In x k -> l <> [] /\ x = last l d.
Proof.
  unfold pad. destruct (Nat.ltb (length l) n) eqn:L.
  - apply Nat.ltb_lt in L. destruct (rev l) as [|y s] eqn:R; [discriminate|]. intros H _. injection H as <-. split; [rewrite app_length, repeat_length; lia|].
    exists (repeat y (n - length l)). split; auto. intros d x I. apply repeat_spec in I. subst x.
    assert (E : l = rev s ++ [y]) by (rewrite <- (rev_involutive l), R; reflexivity). split; [intros ->; discriminate|]. rewrite E, last_last. reflexivity.
  - apply Nat.ltb_ge in L. intros H G. injection H as <-. split; [lia|]. exists []. rewrite app_nil_r. split; auto. intros d x [].
Qed.
Lemma map_res_F {B C} (f : B -> res C) l l' : map_res f l = Ok l' -> Forall2 (fun x y => f x = Ok y) l l'.
Proof. revert l'. induction l as [|x l IH]; intros l' H; cbn in H; [injection H as <-; constructor|]. destruct (f x) eqn:E; [|discriminate]. destruct (map_res f l); [|discriminate]. injection H as <-. constructor; auto. Qed.
(** C32.  The result: as many arguments, all as long as the longest given one, each the given one followed by
    copies of its last value. *)
Theorem C32_result : forall (args : list (@clean_arg A)) n r, clean_args args = Ok (n, r) ->
  (exists a, In a args /\ length (to_list a) = n) /\
  Forall2 (fun a x => (length (to_list a) <= n)%nat /\ length x = n /\ exists k, x = to_list a ++ k /\ forall d y, In y k -> to_list a <> [] /\ y = last (to_list a) d) args r.
Proof.
  intros args n r H. unfold clean_args in H. destruct (longest (map to_list args)) as [m|] eqn:L; [|discriminate]. cbn [bind] in H.
  destruct (map_res (pad m) (map to_list args)) as [r'|] eqn:M; [|discriminate]. injection H as <- <-. destruct (longest_spec _ _ L) as (_ & U & (x & I & E)). split.
  - apply in_map_iff in I. destruct I as (a & <- & I). eauto.
  - apply map_res_F in M. clear L E I x. revert r' M U. induction args as [|a args IH]; intros r' M U; inversion M; subst; constructor.
    + assert (Ua : (length (to_list a) <= m)%nat) by (apply U; now left). split; auto. exact (pad_spec _ _ _ H1 Ua).
    + apply IH; auto. intros z Z. apply U. now right.
Qed.
(** C32.  It is defined exactly when there is an argument and either none or all are empty. *)
Theorem C32_defined : forall args : list (@clean_arg A),
  (args = [] -> clean_args args = Err ValueError) /\
  (args <> [] -> (forall a, In a args -> to_list a <> []) \/ (forall a, In a args -> to_list a = []) -> exists n r, clean_args args = Ok (n, r)) /\
  ((exists a b, In a args /\ In b args /\ to_list a = [] /\ to_list b <> []) -> clean_args args = Err IndexError).
Proof.
  intros args. split; [intros ->; reflexivity|]. unfold clean_args. split.
  - intros N C. destruct (longest (map to_list args)) as [m|] eqn:L; [|destruct args; [congruence|discriminate]]. cbn [bind]. destruct (longest_spec _ _ L) as (_ & U & (x & I & E)).
    assert (P : exists r, map_res (pad m) (map to_list args) = Ok r).
    { assert (Q : forall a, In a args -> exists r, pad m (to_list a) = Ok r).
      { intros a J. unfold pad. destruct (Nat.ltb (length (to_list a)) m) eqn:Lt; [|eauto]. destruct (rev (to_list a)) as [|y s] eqn:R; [|eauto]. exfalso.
        assert (Za : to_list a = []) by (rewrite <- (rev_involutive (to_list a)), R; reflexivity). destruct C as [C|C]; [exact (C a J Za)|].
        apply in_map_iff in I. destruct I as (b & <- & I). rewrite (C b I) in E. cbn in E. subst m. discriminate. }
      clear - Q. induction args as [|a args IH]; cbn [map map_res]; [eauto|]. destruct (Q a (or_introl eq_refl)) as (r & ->). destruct IH as (r' & ->); [intros; apply Q; now right|]. eauto. }
    destruct P as (r & ->). cbn [bind]. eauto.
  - intros (a & b & Ia & Ib & Ea & Eb). destruct (longest (map to_list args)) as [m|] eqn:L; [|destruct args; [contradiction|discriminate]]. cbn [bind]. destruct (longest_spec _ _ L) as (_ & U & _).
    assert (Pm : (0 < m)%nat). { assert (X := U (to_list b) (in_map _ _ _ Ib)). destruct (to_list b); [congruence|cbn in X; lia]. }
    assert (P : map_res (pad m) (map to_list args) = Err IndexError).
    { clear - Ia Ea Pm. induction args as [|c args IH]; [contradiction|]. cbn [map map_res]. unfold pad at 1. destruct (Nat.ltb (length (to_list c)) m) eqn:Lt.
      - destruct (rev (to_list c)) as [|y s] eqn:R; [reflexivity|]. destruct Ia as [->|Ia]; [rewrite Ea in R; discriminate|]. now rewrite IH.
      - destruct Ia as [->|Ia]; [rewrite Ea in Lt; apply Nat.ltb_ge in Lt; cbn in Lt; lia|]. now rewrite IH. }
    rewrite P. reflexivity.
Qed.
(** C32.  Cleaning clean arguments changes nothing. *)
Theorem C32_idempotent : forall (args : list (@clean_arg A)) n r, clean_args args = Ok (n, r) -> clean_args (map Many r) = Ok (n, r).
Proof.
  intros args n r H. destruct (C32_result args n r H) as [(a0 & I0 & E0) F]. unfold clean_args. rewrite map_map. cbn [to_list]. rewrite map_id.
  assert (Ln : Forall (fun x => length x = n) r) by (clear - F; induction F; constructor; tauto).
  assert (Ne : r <> []) by (intros ->; inversion F; subst; contradiction).
  assert (L : longest r = Ok n).
  { unfold longest. destruct r as [|x r]; [congruence|]. f_equal. clear - Ln. inversion Ln; subst. cbn [map fold_right].
    assert (X : (fold_right Nat.max 0 (map (@length A) r) <= length x)%nat). { clear - H2. induction r as [|y r IH]; cbn [map fold_right]; [lia|]. inversion H2; subst. specialize (IH H3). lia. } lia. }
  rewrite L. cbn [bind]. assert (M : map_res (pad n) r = Ok r).
  { clear - Ln. induction Ln as [|x r E _ IH]; cbn [map_res]; [reflexivity|]. unfold pad at 1. rewrite E, Nat.ltb_irrefl, IH. reflexivity. }
  rewrite M. reflexivity.
Qed.
End clean.
Print Assumptions C32_result.
Print Assumptions C32_defined.
Print Assumptions C32_idempotent.
Example C32_ex : clean_args [Many [1; 2]; Scalar 5; Many [7; 8; 9]]%nat = Ok (3, [[1; 2; 2]; [5; 5; 5]; [7; 8; 9]])%nat.
Proof. reflexivity. Qed.
(** C32.  The documentation promises the first value. *)
Theorem C32_first_refuted : exists (a b c : nat) n r, a <> b /\ clean_args [Many [a; b]; Many [c; c; c]] = Ok (n, r) /\ nth 0 r [] <> [a; b; a].
Proof. exists 1%nat, 2%nat, 0%nat, 3%nat, [[1; 2; 2]; [0; 0; 0]]%nat. split; [discriminate|]. split; [reflexivity|discriminate]. Qed.
Print Assumptions C32_first_refuted.

(** ** C33 *)
Theorem C33_arrays : forall tol l, exists r, chop tol (VArr l) = Ok (VArr r) /\ length r = length l /\
  (forall n, (n < length l)%nat -> (Rabs (nth n l 0) < tol -> nth n r 0 = 0) /\ (tol <= Rabs (nth n l 0) -> nth n r 0 = nth n l 0)) /\ chop tol (VArr r) = Ok (VArr r).
Proof.
  intros tol l. exists (map (small tol) l). split; [reflexivity|]. split; [apply map_length|].
  assert (S0 : small tol 0 = 0) by (unfold small; destruct (Rlt_dec _ _); reflexivity).
  split.
  - intros n L. assert (E : nth n (map (small tol) l) 0 = small tol (nth n l 0)) by (rewrite <- S0 at 1; apply map_nth). rewrite E. unfold small. destruct (Rlt_dec (Rabs (nth n l 0)) tol); split; intros; auto; lra.
  - cbn [chop]. do 2 f_equal. rewrite map_map. apply map_ext. intros x. unfold small. destruct (Rlt_dec (Rabs x) tol) as [L|L]; [destruct (Rlt_dec (Rabs 0) tol); reflexivity|destruct (Rlt_dec (Rabs x) tol); [contradiction|reflexivity]].
Qed.
Print Assumptions C33_arrays.
Theorem C33_complex_arrays : forall tol l, exists r, chop tol (VCArr l) = Ok (VCArr r) /\ length r = length l /\
  forall n, (n < length l)%nat -> let p := nth n l (0, 0) in let q := nth n r (0, 0) in
   (Rabs (fst p) < tol -> fst q = 0) /\ (tol <= Rabs (fst p) -> fst q = fst p) /\ (Rabs (snd p) < tol -> snd q = 0) /\ (tol <= Rabs (snd p) -> snd q = snd p).
Proof.
  intros tol l. exists (map (fun p => (small tol (fst p), small tol (snd p))) l). split; [reflexivity|]. split; [apply map_length|]. intros n L. cbv zeta.
  set (f := fun p => (small tol (fst p), small tol (snd p))). assert (E : nth n (map f l) (0, 0) = f (nth n l (0, 0))) by (rewrite (nth_indep _ _ (f (0, 0))) by (now rewrite map_length); apply map_nth).
  rewrite E. unfold f. cbn [fst snd]. generalize (nth n l (0, 0)). intros [a b]. cbn [fst snd]. unfold small.
  repeat split; intros; destruct (Rlt_dec _ _); lra.
Qed.
Print Assumptions C33_complex_arrays.
(** C33.  Numbers: everything below the tolerance becomes zero, negative numbers included; a complex number
    without imaginary part is an error, so chop is not always applicable to its own result. *)
Theorem C33_numbers : forall tol x, 0 < tol -> exists y, chop tol (VNum x) = Ok (VNum y) /\ (x < tol -> y = 0) /\ (tol <= x -> y = x) /\ chop tol (VNum y) = Ok (VNum y).
Proof.
  intros tol x T. exists (below tol x). split; [reflexivity|]. unfold below. cbn [chop]. unfold below. destruct (Rlt_dec x tol) as [L|L].
  - split; auto. split; [lra|]. destruct (Rlt_dec 0 tol); reflexivity.
  - split; [lra|]. split; auto. destruct (Rlt_dec x tol); [contradiction|reflexivity].
Qed.
Print Assumptions C33_numbers.
Theorem C33_negative_refuted : exists tol x, tol = default_tol /\ Rabs x >= 1000000 /\ chop tol (VNum x) = Ok (VNum 0) /\ chop tol (VArr [x]) = Ok (VArr [x]).
Proof.
  assert (T : 0 < default_tol < 1). { unfold default_tol. assert (1 < 10 ^ 12) by (apply Rlt_pow_R1; [lra|lia]). split; [apply Rinv_0_lt_compat; lra|rewrite <- Rinv_1; apply Rinv_lt_contravar; lra]. }
  exists default_tol, (-1000000). split; auto. assert (A : Rabs (-1000000) = 1000000) by (rewrite Rabs_left; lra). rewrite A. split; [lra|]. cbn [chop map]. unfold below, small.
  destruct (Rlt_dec (-1000000) default_tol); [|lra]. rewrite A. destruct (Rlt_dec 1000000 default_tol); [lra|]. auto.
Qed.
Print Assumptions C33_negative_refuted.
Theorem C33_complex_refuted : exists v w, chop default_tol v = Ok w /\ chop default_tol w = Err TypeError.
Proof.
  assert (T : 0 < default_tol < 1). { unfold default_tol. assert (1 < 10 ^ 12) by (apply Rlt_pow_R1; [lra|lia]). split; [apply Rinv_0_lt_compat; lra|rewrite <- Rinv_1; apply Rinv_lt_contravar; lra]. }
  exists (VCplx 1 (-1)), (VCplx 1 0). cbn [chop]. destruct (Req_EM_T (-1) 0); [lra|]. destruct (Req_EM_T 0 0); [|congruence]. split; auto. unfold below.
  destruct (Rlt_dec 1 default_tol); [lra|]. destruct (Rlt_dec (-1) default_tol); [reflexivity|lra].
Qed.
Print Assumptions C33_complex_refuted.
(** C33.  Containers: every item is chopped with the default tolerance whatever the caller asked for. *)
Theorem C33_nested : forall tol l r, (chop tol (VList l) = Ok (VList r) <-> Forall2 (fun v w => chop default_tol v = Ok w) l r) /\ (chop tol (VTuple l) = Ok (VTuple r) <-> Forall2 (fun v w => chop default_tol v = Ok w) l r).
Proof.
  intros tol l r. assert (X : forall l r, each (chop default_tol) l = Ok r <-> Forall2 (fun v w => chop default_tol v = Ok w) l r).
  { clear. induction l as [|v l IH]; intros r; cbn [each].
    - split; [intros H; injection H as <-; constructor|intros H; inversion H; reflexivity].
    - destruct (chop default_tol v) as [w|] eqn:E; cbn [bind].
      + destruct (each (chop default_tol) l) as [ws|] eqn:E'; cbn [bind].
        * split; [intros H; injection H as <-; constructor; [exact E|apply IH; reflexivity]|]. intros H. inversion H; subst. apply IH in H4. congruence.
        * split; [discriminate|]. intros H. inversion H; subst. apply IH in H4. discriminate.
      + split; [discriminate|]. intros H. inversion H; subst. congruence. }
  cbn [chop]. rewrite <- (X l r). fold (each (chop default_tol)). destruct (each (chop default_tol) l) as [ws|]; cbn [bind]; split; split; intros H; try discriminate; congruence.
Qed.
Print Assumptions C33_nested.
Theorem C33_nested_refuted : exists tol x, 0 < Rabs x < tol /\ chop tol (VArr [x]) = Ok (VArr [0]) /\ chop tol (VList [VArr [x]]) = Ok (VList [VArr [x]]).
Proof.
  assert (T : 0 < default_tol < 1). { unfold default_tol. assert (1 < 10 ^ 12) by (apply Rlt_pow_R1; [lra|lia]). split; [apply Rinv_0_lt_compat; lra|rewrite <- Rinv_1; apply Rinv_lt_contravar; lra]. }
  exists 2, 1. rewrite Rabs_pos_eq by lra. split; [lra|]. assert (S : forall t, small t 1 = if Rlt_dec 1 t then 0 else 1) by (intros; unfold small; rewrite Rabs_pos_eq by lra; reflexivity).
  split; [cbn [chop map]; rewrite S; destruct (Rlt_dec 1 2); [reflexivity|lra]|]. apply C33_nested. constructor; [|constructor]. cbn [chop map]. rewrite S. destruct (Rlt_dec 1 default_tol); [lra|reflexivity].
Qed.
Print Assumptions C33_nested_refuted.

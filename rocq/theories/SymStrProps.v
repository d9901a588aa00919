(** Properties of the operation strings (C28). *)
From Coq Require Import String Ascii List ZArith QArith Qround Bool Lia Lqa Decimal DecimalString DecimalNat DecimalPos.
From Verif Require Import Base SymData SymModel SymProof SymGroup.
Import ListNotations.
Local Open Scope string_scope.
Local Open Scope Z_scope.

(** ** A grammar of components, written independently of the parser *)
Inductive axis := X | Y | Z'.
Definition axis_str (a : axis) : string := match a with X => "x" | Y => "y" | Z' => "z" end.
Definition nat_str (n : nat) : string := NilZero.string_of_uint (Nat.to_uint n).
(** The first term with its sign, further terms with a minus sign, and an optional fraction n/d. *)
Record comp := mkComp { first_neg : bool; first : axis; rest : list axis; frac : option (nat * nat) }.
Definition terms_str (c : comp) : string :=
  (if first_neg c then "-" else "") ++ axis_str (first c) ++ String.concat "" (map (fun a => "-" ++ axis_str a) (rest c)).
Definition comp_str (c : comp) : string :=
  terms_str c ++ match frac c with None => "" | Some (n, d) => "+" ++ nat_str n ++ "/" ++ nat_str d end.
(** What it denotes: the coefficient of each axis and the translation. *)
Definition axis_eqb (a b : axis) : bool := match a, b with X, X | Y, Y | Z', Z' => true | _, _ => false end.
Definition coef (c : comp) (a : axis) : Z :=
  (if axis_eqb a (first c) then (if first_neg c then -1 else 1) else 0) +
  fold_right Z.add 0 (map (fun b => if axis_eqb a b then -1 else 0) (rest c)).
Definition trans (c : comp) : Q := match frac c with None => 0 | Some (n, d) => inject_Z (Z.of_nat n) / inject_Z (Z.of_nat d) end.
(** Each axis at most once, denominator not zero. *)
Definition wf (c : comp) : Prop :=
  NoDup (first c :: rest c) /\ match frac c with Some (_, d) => d <> 0%nat | None => True end.

(** ** Text lemmas *)
Lemma app_assoc_s (a b c : string) : (a ++ b) ++ c = a ++ (b ++ c).
Proof. induction a; cbn; congruence. Qed.
Lemma app_nil_s (a : string) : a ++ "" = a.
Proof. induction a; cbn; congruence. Qed.
Fixpoint no_char (c : ascii) (s : string) : bool :=
  match s with EmptyString => true | String d r => negb (Ascii.eqb c d) && no_char c r end.
Lemma split_acc_app c s r acc : no_char c s = true -> split_acc c (s ++ String c r) acc = (acc ++ s) :: split_acc c r EmptyString.
Proof.
  revert acc. induction s as [|d s IH]; intros acc H; cbn [append split_acc].
  - now rewrite Ascii.eqb_refl, app_nil_s.
  - cbn in H. apply andb_prop in H. destruct H as [H1 H2]. apply negb_true_iff in H1. rewrite H1, IH by auto. now rewrite app_assoc_s.
Qed.
Lemma split_acc_none c s acc : no_char c s = true -> split_acc c s acc = [acc ++ s].
Proof.
  revert acc. induction s as [|d s IH]; intros acc H; cbn [split_acc]; [now rewrite app_nil_s|].
  cbn in H. apply andb_prop in H. destruct H as [H1 H2]. apply negb_true_iff in H1. rewrite H1, IH by auto. now rewrite app_assoc_s.
Qed.
Lemma split_app c s r : no_char c s = true -> split c (s ++ String c r) = s :: split c r.
Proof. intros. unfold split. now rewrite split_acc_app. Qed.
Lemma split_none c s : no_char c s = true -> split c s = [s].
Proof. intros. unfold split. now rewrite split_acc_none. Qed.

Lemma digits_acc_uint u : forall acc, digits_acc (NilEmpty.string_of_uint u) (Z.of_nat acc) = Some (Z.of_nat (Nat.of_uint_acc u acc)).
Proof.
  induction u; intros acc; cbn [NilEmpty.string_of_uint digits_acc Nat.of_uint_acc]; auto;
    match goal with |- context [digit ?a] => let d := eval vm_compute in (digit a) in change (digit a) with d end; cbv iota beta;
    rewrite <- IHu; f_equal; rewrite Nat.tail_mul_spec; lia.
Qed.
Lemma to_uint_nonnil n : Nat.to_uint n <> Nil.
Proof.
  intros H. assert (B := DecimalNat.Unsigned.of_to n). rewrite H in B. cbn in B. subst n. discriminate.
Qed.
Lemma nat_str_empty n : nat_str n = NilEmpty.string_of_uint (Nat.to_uint n).
Proof. unfold nat_str, NilZero.string_of_uint. destruct (Nat.to_uint n) eqn:E; auto. now apply to_uint_nonnil in E. Qed.
Lemma nat_str_digits n : digits (nat_str n) = Some (Z.of_nat n).
Proof.
  rewrite nat_str_empty. unfold digits. destruct (NilEmpty.string_of_uint (Nat.to_uint n)) eqn:E.
  - exfalso. destruct (Nat.to_uint n) eqn:F; try discriminate. now apply to_uint_nonnil in F.
  - rewrite <- E. change 0 with (Z.of_nat 0). rewrite digits_acc_uint. f_equal. f_equal.
    change (Nat.of_uint (Nat.to_uint n) = n). apply DecimalNat.Unsigned.of_to.
Qed.
Lemma uint_no_char c u : digit c = None -> no_char c (NilEmpty.string_of_uint u) = true.
Proof.
  intros D. induction u; cbn [NilEmpty.string_of_uint no_char]; auto; rewrite IHu, andb_true_r; apply negb_true_iff;
    apply Ascii.eqb_neq; intros ->; discriminate D.
Qed.
Lemma nat_str_letter n s : letter (nat_str n ++ s) = false.
Proof. rewrite nat_str_empty. destruct (Nat.to_uint n) eqn:E; try reflexivity. now apply to_uint_nonnil in E. Qed.

Lemma eval_frac n d : d <> 0%nat -> exists t, eval (nat_str n ++ "/" ++ nat_str d) = Ok t /\ (t == inject_Z (Z.of_nat n) / inject_Z (Z.of_nat d))%Q.
Proof.
  intros D. unfold eval. rewrite nat_str_letter.
  change ("/" ++ nat_str d) with (String "/" (nat_str d)). rewrite split_app.
  2:{ rewrite nat_str_empty. now apply uint_no_char. }
  rewrite split_none by (rewrite nat_str_empty; now apply uint_no_char). rewrite !nat_str_digits.
  destruct (Z.of_nat d) as [|p|p] eqn:E; try lia. eexists. split; [reflexivity|]. apply Qred_correct.
Qed.

(** ** Components *)
Definition all_axes := [X; Y; Z'].
(** The 30 possible term parts. *)
Definition term_parts : list (bool * axis * list axis) :=
  flat_map (fun b => flat_map (fun a => map (fun r => (b, a, r))
    ([] :: map (fun x => [x]) all_axes ++ flat_map (fun x => map (fun y => [x; y]) all_axes) all_axes)) all_axes) [false; true].
Lemma axis_in a : In a all_axes.
Proof. destruct a; cbn; auto. Qed.
Lemma wf_rest a r : NoDup (a :: r) -> In r ([] :: map (fun x => [x]) all_axes ++ flat_map (fun x => map (fun y => [x; y]) all_axes) all_axes).
Proof.
  intros N. destruct r as [|x [|y [|z r]]].
  - now left.
  - right. apply in_app_iff. left. apply (in_map (fun x => [x])). apply axis_in.
  - right. apply in_app_iff. right. apply in_flat_map. exists x. split; [apply axis_in|]. apply (in_map (fun y => [x; y])). apply axis_in.
  - exfalso. assert (L : (length (a :: x :: y :: z :: r) <= length all_axes)%nat) by (apply NoDup_incl_length; auto; intros b _; apply axis_in). cbn in L. lia.
Qed.
Definition nodup_axes (l : list axis) : bool := nodup_b axis_eqb l.
Definition part_ok (p : bool * axis * list axis) : bool :=
  let '(b, a, r) := p in
  let c := mkComp b a r None in
  let s := terms_str c in
  negb (nodup_axes (a :: r)) ||
  (no_char "+" s && (coefficient "x" s =? coef c X) && (coefficient "y" s =? coef c Y) && (coefficient "z" s =? coef c Z')).
Lemma parts_ok : forallb part_ok term_parts = true.
Proof. vm_compute. reflexivity. Qed.
Lemma nodup_axes_ok l : NoDup l -> nodup_axes l = true.
Proof.
  induction 1 as [|x l I N IH]; auto. unfold nodup_axes in *. cbn [nodup_b]. rewrite IH, andb_true_r. apply negb_true_iff. apply Bool.not_true_iff_false. intros E.
  apply existsb_exists in E. destruct E as (y & Iy & E). apply I. destruct x, y; try discriminate; auto.
Qed.

(** C28.  Parsing a component of the grammar gives what it denotes. *)
Theorem C28_parse_component : forall c, wf c -> exists t,
  parse_component (comp_str c) = Ok (coef c X, coef c Y, coef c Z', t) /\ (t == trans c)%Q.
Proof.
  intros [b a r f] [N D]. cbn [first rest frac] in *.
  assert (P : part_ok (b, a, r) = true).
  { assert (F := parts_ok). rewrite forallb_forall in F. apply F. unfold term_parts. apply in_flat_map. exists b.
    split; [destruct b; cbn; auto|]. apply in_flat_map. exists a. split; [apply axis_in|]. apply (in_map (fun r => (b, a, r))). now apply wf_rest with a. }
  unfold part_ok in P. rewrite nodup_axes_ok in P by auto. cbn [negb orb] in P.
  apply andb_prop in P. destruct P as [P P4]. apply andb_prop in P. destruct P as [P P3]. apply andb_prop in P. destruct P as [P1 P2].
  apply Z.eqb_eq in P2, P3, P4.
  change (terms_str (mkComp b a r None)) with (terms_str (mkComp b a r f)) in *.
  change (coef (mkComp b a r None)) with (coef (mkComp b a r f)) in *.
  unfold parse_component, comp_str. cbn [frac]. unfold trans; cbn [frac]. destruct f as [[n d]|].
  - change ("+" ++ nat_str n ++ "/" ++ nat_str d) with (String "+" (nat_str n ++ "/" ++ nat_str d)). rewrite split_app by auto.
    rewrite (split_none "+" (nat_str n ++ "/" ++ nat_str d)).
    2:{ assert (A : forall s t, no_char "+" (s ++ t) = no_char "+" s && no_char "+" t) by (induction s; intros; cbn; auto; now rewrite IHs, andb_assoc).
        rewrite A, A, !nat_str_empty, !uint_no_char by reflexivity. reflexivity. }
    cbn [last hd]. destruct (eval_frac n d D) as (t & -> & E). exists t. split; auto. now rewrite P2, P3, P4.
  - rewrite app_nil_s, split_none by auto. cbn [hd]. exists 0%Q. split; [now rewrite P2, P3, P4|reflexivity].
Qed.
Print Assumptions C28_parse_component.
Example C28_ex : wf (mkComp true Y [X] (Some (2, 3)%nat)) /\ comp_str (mkComp true Y [X] (Some (2, 3)%nat)) = "-y-x+2/3".
Proof. split; [split; [repeat constructor; cbn; intuition congruence|discriminate]|reflexivity]. Qed.

(** C28.  Every generator in the table is three such components, so it is parsed to what it denotes. *)
Definition op_denotes (o : op) (a b c : comp) : Prop :=
  r11 o = coef a X /\ r12 o = coef a Y /\ r13 o = coef a Z' /\ r21 o = coef b X /\ r22 o = coef b Y /\ r23 o = coef b Z' /\
  r31 o = coef c X /\ r32 o = coef c Y /\ r33 o = coef c Z' /\ (t1 o == trans a)%Q /\ (t2 o == trans b)%Q /\ (t3 o == trans c)%Q.
Lemma comp_no_comma c : wf c -> no_char "," (comp_str c) = true.
Proof.
  intros [N D]. destruct c as [b a r f]. cbn [first rest frac] in *.
  assert (A : forall s t, no_char "," (s ++ t) = no_char "," s && no_char "," t) by (induction s; intros; cbn; auto; now rewrite IHs, andb_assoc).
  unfold comp_str. rewrite A. apply andb_true_intro. split.
  - assert (F : forallb (fun p => let '(b, a, r) := p in no_char "," (terms_str (mkComp b a r None))) term_parts = true) by (vm_compute; reflexivity).
    rewrite forallb_forall in F. apply (F (b, a, r)). unfold term_parts. apply in_flat_map. exists b.
    split; [destruct b; cbn; auto|]. apply in_flat_map. exists a. split; [apply axis_in|]. apply (in_map (fun r => (b, a, r))). now apply wf_rest with a.
  - cbn [frac]. destruct f as [[n d]|]; auto. rewrite !A, !nat_str_empty, !uint_no_char by reflexivity. reflexivity.
Qed.
Theorem C28_parse_operation : forall a b c, wf a -> wf b -> wf c ->
  exists o, parse_op (comp_str a ++ "," ++ comp_str b ++ "," ++ comp_str c) = Ok o /\ op_denotes o a b c.
Proof.
  intros a b c Wa Wb Wc. unfold parse_op.
  change ("," ++ comp_str b ++ "," ++ comp_str c) with (String "," (comp_str b ++ String "," (comp_str c))).
  rewrite split_app, split_app, split_none by (now apply comp_no_comma).
  destruct (C28_parse_component a Wa) as (ta & Ea & Ta). destruct (C28_parse_component b Wb) as (tb & Eb & Tb).
  destruct (C28_parse_component c Wc) as (tc & Ec & Tc). cbn [length Nat.ltb Nat.leb map_res nth]. rewrite Ea, Eb, Ec. cbn [nth].
  eexists. split; [reflexivity|]. unfold op_denotes; cbn. repeat split; auto.
Qed.
Print Assumptions C28_parse_operation.
(** C28.  More than three components are a ValueError, whatever they are; components left out are zero rows without translation. *)
Lemma split_concat l : Forall (fun s => no_char "," s = true) l -> l <> [] -> split "," (String.concat "," l) = l.
Proof.
  intros F N. induction F as [|s l H F IH]; [congruence|]. destruct l as [|s' l].
  - cbn [String.concat]. now apply split_none.
  - change (String.concat "," (s :: s' :: l)) with (s ++ String "," (String.concat "," (s' :: l))). rewrite split_app by exact H. f_equal. apply IH. discriminate.
Qed.
Theorem C28_number_of_components :
  (forall l, Forall (fun s => no_char "," s = true) l -> (3 < length l)%nat -> parse_op (String.concat "," l) = Err ValueError) /\
  (forall a, wf a -> exists o t, parse_op (comp_str a) = Ok o /\ (t == trans a)%Q /\ o = mkOp (coef a X) (coef a Y) (coef a Z') 0 0 0 0 0 0 t 0 0) /\
  (forall a b, wf a -> wf b -> exists o t u, parse_op (comp_str a ++ "," ++ comp_str b) = Ok o /\ (t == trans a)%Q /\ (u == trans b)%Q /\ o = mkOp (coef a X) (coef a Y) (coef a Z') (coef b X) (coef b Y) (coef b Z') 0 0 0 t u 0).
Proof.
  split; [|split].
  - intros l F L. unfold parse_op. rewrite split_concat; [|exact F|destruct l; [cbn in L; lia|discriminate]]. apply Nat.ltb_lt in L. rewrite L. reflexivity.
  - intros a Wa. unfold parse_op. rewrite split_none by (now apply comp_no_comma). destruct (C28_parse_component a Wa) as (ta & Ea & Ta). cbn [length Nat.ltb Nat.leb map_res nth]. rewrite Ea. cbn [nth]. do 2 eexists. split; [reflexivity|]. split; [exact Ta|reflexivity].
  - intros a b Wa Wb. unfold parse_op. change ("," ++ comp_str b) with (String "," (comp_str b)). rewrite split_app, split_none by (now apply comp_no_comma).
    destruct (C28_parse_component a Wa) as (ta & Ea & Ta). destruct (C28_parse_component b Wb) as (tb & Eb & Tb). cbn [length Nat.ltb Nat.leb map_res nth]. rewrite Ea, Eb. cbn [nth]. do 3 eexists. split; [reflexivity|]. split; [exact Ta|]. split; [exact Tb|reflexivity].
Qed.
Print Assumptions C28_number_of_components.
Example C28_number_of_components_ex : parse_op "x,y,z,x" = Err ValueError.
Proof. apply (proj1 C28_number_of_components ["x"; "y"; "z"; "x"]); [repeat constructor|cbn; lia]. Qed.

(** A list of candidate components that covers the table. *)
Definition fracs : list (option (nat * nat)) := [None; Some (1, 2); Some (1, 4); Some (3, 4); Some (1, 3); Some (2, 3)]%nat.
Definition comps : list comp := flat_map (fun p => let '(b, a, r) := p in
  if nodup_axes (a :: r) then map (mkComp b a r) fracs else []) term_parts.
Definition covered (s : string) : bool :=
  existsb (fun a => if prefix (comp_str a ++ ",") s then
    existsb (fun b => if prefix (comp_str a ++ "," ++ comp_str b ++ ",") s then
      existsb (fun c => String.eqb s (comp_str a ++ "," ++ comp_str b ++ "," ++ comp_str c)) comps else false) comps else false) comps.
Lemma table_covered : forallb (fun e => forallb covered (e_gens e)) table = true.
Proof. vm_compute. reflexivity. Qed.
Lemma comps_wf c : In c comps -> wf c.
Proof.
  intros I. unfold comps in I. apply in_flat_map in I. destruct I as ([[b a] r] & _ & I).
  destruct (nodup_axes (a :: r)) eqn:E; [|destruct I]. apply in_map_iff in I. destruct I as (f & <- & I).
  split; cbn [first rest frac]; [apply (nodup_b_ok axis_eqb); auto; intros []; reflexivity|].
  repeat (destruct I as [<-|I]; [exact Logic.I || discriminate|]). destruct I.
Qed.
Theorem C28_table_generators : forall e s, In e table -> In s (e_gens e) ->
  exists a b c o, wf a /\ wf b /\ wf c /\ s = comp_str a ++ "," ++ comp_str b ++ "," ++ comp_str c /\
  parse_op s = Ok o /\ op_denotes o a b c.
Proof.
  intros e s Ie Is. assert (C := table_covered). rewrite forallb_forall in C. specialize (C e Ie). rewrite forallb_forall in C. specialize (C s Is).
  unfold covered in C. apply existsb_exists in C. destruct C as (a & Ia & C). destruct (prefix _ s); [|discriminate].
  apply existsb_exists in C. destruct C as (b & Ib & C). destruct (prefix _ s); [|discriminate].
  apply existsb_exists in C. destruct C as (c & Ic & C). apply String.eqb_eq in C.
  destruct (C28_parse_operation a b c) as (o & Po & Do); auto using comps_wf. exists a, b, c, o. rewrite C. do 5 (split; [auto using comps_wf|]). exact Do.
Qed.
Print Assumptions C28_table_generators.

(** ** Formatting and re-reading *)
(** Rows for which it works: entries -1, 0, 1, at least one not zero, and only the first non-zero one positive. *)
Definition row_ok (a b c : Z) : Prop :=
  (-1 <= a <= 1) /\ (-1 <= b <= 1) /\ (-1 <= c <= 1) /\
  ((a <> 0 /\ b <> 1 /\ c <> 1) \/ (a = 0 /\ b <> 0 /\ c <> 1) \/ (a = 0 /\ b = 0 /\ c <> 0)).
Definition trans_ok (t : Q) : Prop :=
  t = 0%Q \/ t = (3 # 4)%Q \/ t = (2 # 3)%Q \/ t = (5 # 6)%Q \/ exists n, t = (1 # n)%Q.

Lemma digits_acc_pos u : forall acc, digits_acc (NilEmpty.string_of_uint u) (Zpos acc) = Some (Zpos (Pos.of_uint_acc u acc)).
Proof.
  induction u; intros acc; cbn [NilEmpty.string_of_uint digits_acc Pos.of_uint_acc]; auto;
    match goal with |- context [digit ?a] => let d := eval vm_compute in (digit a) in change (digit a) with d end; cbv iota beta;
    rewrite <- IHu; f_equal; lia.
Qed.
Lemma digits_acc_zero u : digits_acc (NilEmpty.string_of_uint u) 0 = Some (Z.of_N (Pos.of_uint u)).
Proof.
  induction u; cbn [NilEmpty.string_of_uint digits_acc Pos.of_uint]; auto;
    match goal with |- context [digit ?a] => let d := eval vm_compute in (digit a) in change (digit a) with d end; cbv iota beta; auto;
    apply digits_acc_pos.
Qed.
Lemma pos_uint_nonnil p : Pos.to_uint p <> Nil.
Proof. intros H. assert (B := DecimalPos.Unsigned.of_to p). rewrite H in B. discriminate. Qed.
Lemma str_of_pos p : str_of_int (Zpos p) = NilEmpty.string_of_uint (Pos.to_uint p).
Proof.
  unfold str_of_int, Z.to_int. cbn [NilZero.string_of_int]. unfold NilZero.string_of_uint.
  destruct (Pos.to_uint p) eqn:E; auto. now apply pos_uint_nonnil in E.
Qed.
Lemma digits_pos p : digits (str_of_int (Zpos p)) = Some (Zpos p).
Proof.
  rewrite str_of_pos. unfold digits. destruct (NilEmpty.string_of_uint (Pos.to_uint p)) eqn:E.
  - exfalso. destruct (Pos.to_uint p) eqn:F; try discriminate. now apply pos_uint_nonnil in F.
  - rewrite <- E, digits_acc_zero, DecimalPos.Unsigned.of_to. reflexivity.
Qed.
Lemma eval_one_over p : exists t, eval ("1/" ++ str_of_int (Zpos p)) = Ok t /\ (t == 1 # p)%Q.
Proof.
  unfold eval. cbn [append letter]. change (String "1" (String "/" (str_of_int (Zpos p)))) with ("1" ++ String "/" (str_of_int (Zpos p))).
  rewrite split_app, split_none by (reflexivity || (rewrite str_of_pos; now apply uint_no_char)). rewrite digits_pos.
  change (digits "1") with (Some 1). eexists. split; [reflexivity|]. rewrite Qred_correct. unfold Qdiv, Qmult, Qinv, inject_Z, Qeq; cbn. lia.
Qed.

Lemma Qfloor_Z z : Qfloor (inject_Z z) = z.
Proof. unfold Qfloor, inject_Z. apply Z.div_1_r. Qed.
Lemma round_int z : round_half_even (inject_Z z) = z.
Proof.
  unfold round_half_even. rewrite Qfloor_Z.
  assert (E : (inject_Z z - inject_Z z ?= 1 # 2)%Q = Lt) by (apply Qlt_alt; unfold Qminus; rewrite Qplus_opp_r; reflexivity).
  now rewrite E.
Qed.
Lemma round_upper x : (inject_Z (round_half_even x) <= x + (1 # 2))%Q.
Proof.
  unfold round_half_even. assert (L := Qfloor_le x).
  destruct (x - inject_Z (Qfloor x) ?= 1 # 2)%Q eqn:E.
  - apply Qeq_alt in E. destruct (Z.even _); [lra|]. rewrite inject_Z_plus. change (inject_Z 1) with 1%Q. lra.
  - lra.
  - apply Qgt_alt in E. rewrite inject_Z_plus. change (inject_Z 1) with 1%Q. lra.
Qed.
Lemma not_833 n : Qeq_bool (round_to 1000 (1 # n)) (833 # 1000) = false.
Proof.
  apply Bool.not_true_iff_false. intros E. apply Qeq_bool_iff in E. unfold round_to in E.
  set (r := round_half_even _) in E. assert (R : r = 833).
  { unfold Qdiv, Qinv, inject_Z, Qmult, Qeq in E. cbn [Qnum Qden] in E. lia. }
  assert (U := round_upper ((1 # n) * inject_Z 1000)). fold r in U. rewrite R in U.
  destruct (Pos.eq_dec n 1) as [->|N]; [vm_compute in r; subst r; discriminate|].
  unfold inject_Z, Qmult, Qplus, Qle in U. cbn [Qnum Qden] in U. lia.
Qed.
Lemma translation_str_inv n : translation_str (1 # n) = "1/" ++ str_of_int (Zpos n).
Proof.
  unfold translation_str. change (1 / (1 # n))%Q with (inject_Z (Zpos n)).
  assert (A : Qeq_bool (1 # n) 0 = false) by reflexivity. rewrite A.
  assert (B : Qeq_bool (round_to 10 (inject_Z (Zpos n))) (3 # 2) = false).
  { unfold round_to. change (inject_Z (Zpos n) * inject_Z (Zpos 10))%Q with (inject_Z (Zpos n * 10)). rewrite round_int.
    apply Bool.not_true_iff_false. intros E. apply Qeq_bool_iff in E. unfold Qdiv, Qinv, inject_Z, Qmult, Qeq in E. cbn [Qnum Qden] in E. lia. }
  rewrite B.
  assert (C : Qeq_bool (1 # n) (3 # 4) = false).
  { apply Bool.not_true_iff_false. intros E. apply Qeq_bool_iff in E. unfold Qeq in E. cbn [Qnum Qden] in E. lia. }
  rewrite C, not_833, round_int. reflexivity.
Qed.
Lemma no_char_app c s t : no_char c (s ++ t) = no_char c s && no_char c t.
Proof. induction s; cbn; auto. now rewrite IHs, andb_assoc. Qed.
(** The translation text of an admissible non-zero translation: not empty, no plus sign, evaluates back. *)
Lemma translation_str_ok t : trans_ok t -> t <> 0%Q ->
  translation_str t <> "" /\ no_char "+" (translation_str t) = true /\ no_char "," (translation_str t) = true /\
  exists t', eval (translation_str t) = Ok t' /\ (t' == t)%Q.
Proof.
  intros [->|[->|[->|[->|[n ->]]]]] N; [congruence| | | |].
  1-3: vm_compute; repeat (split; [congruence|]); eexists; (split; [reflexivity|reflexivity]).
  rewrite translation_str_inv. split; [discriminate|]. rewrite !no_char_app, str_of_pos, !uint_no_char by reflexivity.
  rewrite <- str_of_pos. repeat (split; [reflexivity|]). apply eval_one_over.
Qed.
Lemma split_acc_gen c s r acc : split_acc c (s ++ String c r) acc = (split_acc c s acc ++ split c r)%list.
Proof.
  revert acc. induction s as [|d s IH]; intros acc; cbn [append split_acc]; [now rewrite Ascii.eqb_refl|].
  destruct (Ascii.eqb c d); rewrite IH; reflexivity.
Qed.
Lemma parse_plus terms tr t : no_char "+" tr = true -> eval tr = Ok t ->
  parse_component (terms ++ "+" ++ tr) =
  Ok (coefficient "x" (hd "" (split "+" terms)), coefficient "y" (hd "" (split "+" terms)), coefficient "z" (hd "" (split "+" terms)), t).
Proof.
  intros N E. unfold parse_component. change ("+" ++ tr) with (String "+" tr). 
  assert (S : split "+" (terms ++ String "+" tr) = (split "+" terms ++ [tr])%list) by (rewrite <- (split_none "+" tr N); apply split_acc_gen).
  rewrite S, last_last.
  assert (NE : split "+" terms <> []).
  { clear. unfold split. generalize "". induction terms as [|d r IH]; intros acc; cbn [split_acc]; [discriminate|].
    destruct (Ascii.eqb "+" d); [discriminate|apply IH]. }
  destruct (split "+" terms) as [|s0 l]; [congruence|]. rewrite E. change ((s0 :: l) ++ [tr])%list with (s0 :: (l ++ [tr])%list). cbn [hd]. destruct l; reflexivity.
Qed.
Definition terms_of (a b c : Z) : string :=
  match component_str a b c 0 with Ok s => s | Err _ => "" end.
Definition range : list (Z * Z * Z) :=
  flat_map (fun a => flat_map (fun b => map (fun c => (a, b, c)) [-1; 0; 1]) [-1; 0; 1]) [-1; 0; 1].
Lemma in_range a b c : -1 <= a <= 1 -> -1 <= b <= 1 -> -1 <= c <= 1 -> In (a, b, c) range.
Proof.
  intros A B C. assert (H : forall z, -1 <= z <= 1 -> In z [-1; 0; 1]) by (intros z Hz; cbn; lia).
  apply in_flat_map. exists a. split; [auto|]. apply in_flat_map. exists b. split; [auto|]. apply (in_map (fun c => (a, b, c))). auto.
Qed.
Lemma component_str_shape a b c t : -1 <= a <= 1 -> -1 <= b <= 1 -> -1 <= c <= 1 -> (a, b, c) <> (0, 0, 0) -> translation_str t <> "" ->
  component_str a b c t = Ok (terms_of a b c ++ "+" ++ translation_str t).
Proof.
  intros A B C NZ N. unfold component_str at 1. destruct (translation_str t) as [|ch s0]; [congruence|]. assert (I := in_range a b c A B C). clear A B C N t.
  repeat (destruct I as [I|I]; [injection I as <- <- <-; vm_compute; (reflexivity || (exfalso; now apply NZ))|]). destruct I.
Qed.

(** C28.  An operation row written by the formatter is read back, whenever at most its first term is positive. *)
Theorem C28_round_trip : forall a b c t, row_ok a b c -> trans_ok t ->
  exists s t', component_str a b c t = Ok s /\ parse_component s = Ok (a, b, c, t') /\ (t' == t)%Q.
Proof.
  intros a b c t (A & B & C & R) T. destruct (Qeq_dec t 0) as [Z|NZ].
  - assert (t = 0%Q) as ->. { destruct T as [->|[->|[->|[->|[n ->]]]]]; auto; discriminate Z. } clear Z T.
    assert (I := in_range a b c A B C). clear A B C.
    repeat (destruct I as [I|I]; [injection I as <- <- <-; first [exfalso; lia|eexists; exists 0%Q; split; [vm_compute; reflexivity|]; split; [vm_compute; reflexivity|reflexivity]]|]).
    destruct I.
  - assert (N0 : t <> 0%Q) by (intros ->; now apply NZ). destruct (translation_str_ok t T N0) as (NE & NP & _ & t' & E & Et).
    assert (NR : (a, b, c) <> (0, 0, 0)) by (intros H; injection H as -> -> ->; lia).
    rewrite component_str_shape by auto. eexists. exists t'. split; [reflexivity|]. split; [|exact Et]. rewrite (parse_plus _ _ t') by auto.
    assert (I := in_range a b c A B C). clear A B C.
    repeat (destruct I as [I|I]; [injection I as <- <- <-; try (exfalso; lia); vm_compute; reflexivity|]).
    destruct I.
Qed.
Print Assumptions C28_round_trip.
Example C28_round_trip_ex : row_ok (-1) (-1) 0 /\ trans_ok (1 # 3) /\ component_str (-1) (-1) 0 (1 # 3) = Ok "-x-y+1/3".
Proof. split; [unfold row_ok; lia|]. split; [unfold trans_ok; right; right; right; right; now exists 3%positive|reflexivity]. Qed.

(** C28.  In every other non-zero row a positive term follows another: without a translation re-reading raises
    NameError, with one it succeeds but gives another row. *)
Theorem C28_no_round_trip : forall a b c t, -1 <= a <= 1 -> -1 <= b <= 1 -> -1 <= c <= 1 -> (a, b, c) <> (0, 0, 0) -> ~ row_ok a b c -> trans_ok t ->
  exists s, component_str a b c t = Ok s /\
  (t = 0%Q -> parse_component s = Err NameError) /\
  (t <> 0%Q -> exists a' b' c' t', parse_component s = Ok (a', b', c', t') /\ (t' == t)%Q /\ (a', b', c') <> (a, b, c)).
Proof.
  intros a b c t A B C NZ R T. destruct (Qeq_dec t 0) as [Z|Nt].
  - assert (t = 0%Q) as ->. { destruct T as [->|[->|[->|[->|[n ->]]]]]; auto; discriminate Z. } clear Z T.
    assert (I := in_range a b c A B C). unfold row_ok in R.
    repeat (destruct I as [I|I]; [injection I as <- <- <-; first [exfalso; ((apply NZ; reflexivity) || lia)|eexists; split; [vm_compute; reflexivity|]; split; [intros _; vm_compute; reflexivity|congruence]]|]).
    destruct I.
  - assert (N0 : t <> 0%Q) by (intros ->; now apply Nt). destruct (translation_str_ok t T N0) as (NE & NP & _ & t' & E & Et).
    rewrite component_str_shape by auto. eexists. split; [reflexivity|]. split; [congruence|]. intros _. rewrite (parse_plus _ _ t') by auto.
    do 4 eexists. split; [reflexivity|]. split; [exact Et|].
    assert (I := in_range a b c A B C). unfold row_ok in R.
    repeat (destruct I as [I|I]; [injection I as <- <- <-; try (exfalso; (apply NZ; reflexivity) || lia); vm_compute; congruence|]).
    destruct I.
Qed.
Print Assumptions C28_no_round_trip.
Example C28_no_round_trip_ex : ~ row_ok (-1) 1 0 /\ component_str (-1) 1 0 0 = Ok "-x+y" /\ parse_component "-x+y" = Err NameError.
Proof. split; [unfold row_ok; lia|]. split; reflexivity. Qed.

(** C28, refuted: a translation outside that list is not preserved, a subtracted one is dropped, and so is one in a row without axes. *)
Theorem C28_translation_refuted : exists t, (0 < t < 1)%Q /\ exists s t', component_str 1 0 0 t = Ok s /\ parse_component s = Ok (1, 0, 0, t') /\ ~ (t' == t)%Q.
Proof. exists (3 # 8)%Q. split; [split; reflexivity|]. exists "x+1/3", (1 # 3)%Q. repeat split; try (vm_compute; reflexivity). discriminate. Qed.
Print Assumptions C28_translation_refuted.
Theorem C28_subtracted_refuted : exists s, s = "x-1/2" /\ parse_component s = Ok (1, 0, 0, 0%Q).
Proof. exists "x-1/2". split; reflexivity. Qed.
Print Assumptions C28_subtracted_refuted.

(** ** Whole operations of the table *)
Lemma generators_text : forallb (fun e => forallb (fun s =>
  match parse_op s with Ok o => match str_of_op o with Ok s' => String.eqb s s' | Err _ => false end | Err _ => false end) (e_gens e)) table = true.
Proof. vm_compute. reflexivity. Qed.
(** C28.  Reading and writing a generator of the table returns its text. *)
Theorem C28_generators_text : forall e s, In e table -> In s (e_gens e) -> exists o, parse_op s = Ok o /\ str_of_op o = Ok s.
Proof.
  intros e s Ie Is. assert (C := generators_text). rewrite forallb_forall in C. specialize (C e Ie). rewrite forallb_forall in C. specialize (C s Is).
  cbv beta in C. destruct (parse_op s) as [o|]; [|discriminate]. exists o. split; auto. destruct (str_of_op o) as [s'|]; [|discriminate].
  apply String.eqb_eq in C. now subst.
Qed.
Print Assumptions C28_generators_text.

Definition strict_eqb (p q : op) : bool :=
  rot_eqb p q && Qeq_bool (t1 p) (t1 q) && Qeq_bool (t2 p) (t2 q) && Qeq_bool (t3 p) (t3 q).
Definition same_op (p q : op) : Prop :=
  (r11 p, r12 p, r13 p, r21 p, r22 p, r23 p, r31 p, r32 p, r33 p) = (r11 q, r12 q, r13 q, r21 q, r22 q, r23 q, r31 q, r32 q, r33 q) /\
  (t1 p == t1 q)%Q /\ (t2 p == t2 q)%Q /\ (t3 p == t3 q)%Q.
Lemma strict_eqb_iff p q : strict_eqb p q = true <-> same_op p q.
Proof.
  unfold strict_eqb, same_op, rot_eqb. rewrite !andb_true_iff, !Z.eqb_eq, !Qeq_bool_iff. split; [|intros (E & ?); injection E; intuition].
  intuition. congruence.
Qed.
Fixpoint all2 (l m : list op) : bool :=
  match l, m with [], [] => true | p :: l, q :: m => strict_eqb p q && all2 l m | _, _ => false end.
Lemma all2_iff l m : all2 l m = true <-> Forall2 same_op l m.
Proof.
  revert m. induction l as [|p l IH]; destruct m; cbn; try (split; [discriminate|intros H; inversion H]).
  - split; auto.
  - rewrite andb_true_iff, IH, strict_eqb_iff. split; [intros []; auto|intros H; inversion H; auto].
Qed.
Definition rereads (ops : list op) : bool :=
  match get_str_from_generator ops with
  | Ok l => match get_generator_from_str l with Ok ops' => all2 ops' ops | Err _ => false end
  | Err _ => false
  end.
Lemma table_rereads : forallb (fun e =>
  match load (Some (e_key e)) with
  | Ok g => Bool.eqb (rereads (g_ops g)) (negb ((143 <=? e_number e) && (e_number e <=? 194))) &&
            match get_str_from_generator (g_ops g) with Ok _ => true | Err _ => false end
  | Err _ => false end) table = true.
Proof. vm_compute. reflexivity. Qed.

(** C28.  The operations of every group can be written; reading them back gives the same operations exactly for the
    groups that are neither trigonal nor hexagonal. *)
Theorem C28_operations_text : forall e g, In e table -> space_group (SStr (e_key e)) = Ok g ->
  exists l, get_str_from_generator (g_ops g) = Ok l /\
  ((exists ops, get_generator_from_str l = Ok ops /\ Forall2 same_op ops (g_ops g)) <-> ~ (143 <= e_number e <= 194)).
Proof.
  intros e g Ie G. assert (C := table_rereads). rewrite forallb_forall in C. specialize (C e Ie). cbv beta in C.
  assert (K : space_group (SStr (e_key e)) = load (Some (e_key e))).
  { unfold space_group, select. destruct (by_key (e_key e)) eqn:B; [reflexivity|]. exfalso. unfold by_key in B.
    apply (find_none _ _ B) in Ie. now rewrite String.eqb_refl in Ie. }
  rewrite K in G. rewrite G in C. apply andb_prop in C. destruct C as [C1 C2]. unfold rereads in C1.
  destruct (get_str_from_generator (g_ops g)) as [l|]; [|discriminate]. exists l. split; [reflexivity|]. apply Bool.eqb_prop in C1.
  destruct (get_generator_from_str l) as [ops|].
  - destruct (all2 ops (g_ops g)) eqn:A.
    + split; [|intros _; exists ops; split; [reflexivity|now apply all2_iff]]. intros _ [H1 H2]. apply Z.leb_le in H1, H2. now rewrite H1, H2 in C1.
    + split.
      * intros (o & E & F). injection E as <-. apply all2_iff in F. congruence.
      * intros N. exfalso. apply N. symmetry in C1. apply negb_false_iff in C1. apply andb_prop in C1. now rewrite <- !Z.leb_le.
  - split; [intros (o & E & _); discriminate|]. intros N. exfalso. apply N. symmetry in C1. apply negb_false_iff in C1. apply andb_prop in C1. now rewrite <- !Z.leb_le.
Qed.
Print Assumptions C28_operations_text.

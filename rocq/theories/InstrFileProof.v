(** Facts about the texts of numbers, for C51. *)
From Coq Require Import String Ascii List Arith Bool Lia.
From Verif Require Import Base TextModel TextProof InstrFileModel.
Import ListNotations.
Local Open Scope string_scope.

(** ** Texts of numbers *)
(** A decimal number as Python prints it: minus sign, digits, and a point with digits or not. *)
Definition unminus (s : string) : string := match s with String c r => if Ascii.eqb c "-" then r else s | _ => s end.
Definition nonempty (s : string) : bool := negb (String.eqb s "").
Definition decimal (s : string) : bool :=
  let u := unminus s in
  (nonempty (int_part u) && all_digits (int_part u) && match frac_part u with EmptyString => true | String _ d => nonempty d && all_digits d end)%bool.
Definition word (s : string) : string := int_part s ++ frac_word s.

Lemma int_frac s : int_part s ++ frac_part s = s.
Proof. induction s as [|c s IH]; cbn; [reflexivity|]. destruct (Ascii.eqb c "."); cbn; [reflexivity|f_equal; exact IH]. Qed.
Lemma int_no_dot s : has "." (int_part s) = false.
Proof. induction s as [|c s IH]; [reflexivity|]. cbn [int_part]. destruct (Ascii.eqb c ".") eqn:E; [reflexivity|]. cbn [has]. rewrite IH. destruct (Ascii.eqb_spec "." c) as [<-|]; [discriminate|reflexivity]. Qed.
Lemma frac_form s : frac_part s = "" \/ exists d, frac_part s = String "." d.
Proof. induction s as [|c s IH]; [left; reflexivity|]. cbn [frac_part]. destruct (Ascii.eqb_spec c ".") as [->|]; [right; eauto|exact IH]. Qed.
Lemma unminus_int s : int_part (unminus s) = unminus (int_part s) /\ frac_part (unminus s) = frac_part s.
Proof. destruct s as [|c s]; [auto|]. cbn [unminus int_part frac_part]. destruct (Ascii.eqb_spec c "-") as [->|N]; [auto|]. cbn [int_part frac_part]. destruct (Ascii.eqb_spec c "."); [subst; auto|]. cbn [unminus]. destruct (Ascii.eqb_spec c "-"); [contradiction|auto]. Qed.
Lemma digit_char c : digit c = true -> Ascii.eqb c "-" = false /\ Ascii.eqb c "+" = false /\ Ascii.eqb c "." = false.
Proof. destruct c as [[|] [|] [|] [|] [|] [|] [|] [|]]; vm_compute; auto; discriminate. Qed.
Lemma fstep_digit q c : digit c = true -> fstep q c = match q with FStart | FSign | FInt | FIntU => FInt | FDot | FPoint | FFrac | FFracU => FFrac | FBad => FBad | _ => FExpD end.
Proof. intros H. unfold fstep. rewrite H. destruct q; reflexivity. Qed.
Lemma frun_digits q s : all_digits s = true -> (q = FInt \/ q = FFrac) -> frun q s = q.
Proof. intros H [-> | ->]; induction s as [|c s IH]; try reflexivity; cbn in H; apply andb_prop in H; destruct H as (H1 & H2); cbn [frun]; rewrite fstep_digit by exact H1; apply IH; exact H2. Qed.
(** A decimal number: its sign, digits, and fraction. *)
Lemma decimal_form s : decimal s = true <-> exists m i f, s = m ++ i ++ f /\ (m = "" \/ m = "-") /\ nonempty i = true /\ all_digits i = true /\ (f = "" \/ exists d, f = String "." d /\ nonempty d = true /\ all_digits d = true).
Proof.
  unfold decimal. cbv zeta. split.
  - intros H. apply andb_prop in H. destruct H as (H & H3). apply andb_prop in H. destruct H as (H1 & H2).
    exists (if String.eqb (unminus s) s then "" else "-"), (int_part (unminus s)), (frac_part (unminus s)). split.
    { rewrite int_frac. destruct s as [|c s]; [reflexivity|]. cbn [unminus]. destruct (Ascii.eqb_spec c "-") as [->|]; [|rewrite String.eqb_refl; reflexivity].
      assert (N : String.eqb s (String "-" s) = false) by (apply String.eqb_neq; intros E; apply (f_equal String.length) in E; cbn in E; lia). rewrite N. reflexivity. }
    split; [destruct (String.eqb _ _); auto|]. split; [exact H1|]. split; [exact H2|]. destruct (frac_form (unminus s)) as [E|(d & E)]; rewrite E in *; [auto|]. right. exists d. apply andb_prop in H3. destruct H3. auto.
  - intros (m & i & f & -> & Hm & Ni & Di & Hf).
    assert (U : unminus (m ++ i ++ f) = i ++ f).
    { destruct Hm as [-> | ->]; [|reflexivity]. cbn [append]. destruct i as [|c i]; [discriminate|]. cbn in Di. apply andb_prop in Di. destruct Di as (D1 & _). destruct (digit_char c D1) as (X & _). cbn [append unminus]. rewrite X. reflexivity. }
    rewrite U. assert (P : int_part (i ++ f) = i /\ frac_part (i ++ f) = f).
    { clear -Di Hf. induction i as [|c i IH]; cbn [append].
      - destruct Hf as [-> | (d & -> & _)]; auto.
      - cbn in Di. apply andb_prop in Di. destruct Di as (D1 & D2). destruct (digit_char c D1) as (_ & _ & X). cbn [int_part frac_part]. rewrite X. destruct (IH D2) as (-> & ->). auto. }
    destruct P as (-> & ->). rewrite Ni, Di. destruct Hf as [-> | (d & -> & -> & ->)]; reflexivity.
Qed.
Lemma frun_decimal m i f : (m = "" \/ m = "-") -> nonempty i = true -> all_digits i = true -> frun FStart (m ++ i ++ f) = frun FInt f.
Proof.
  intros Hm Ni Di. destruct i as [|c i]; [discriminate|]. cbn in Di. apply andb_prop in Di. destruct Di as (D1 & D2).
  rewrite frun_app. assert (E : frun (frun FStart m) (String c i ++ f) = frun (frun FInt i) f) by (destruct Hm as [-> | ->]; cbn [append frun]; rewrite fstep_digit by exact D1; rewrite frun_app; reflexivity).
  rewrite E. rewrite (frun_digits FInt i D2) by auto. reflexivity.
Qed.
Lemma decimal_float s : decimal s = true -> is_float s = true /\ is_float (word s) = true.
Proof.
  intros H. assert (H' := H). apply decimal_form in H. destruct H as (m & i & f & -> & Hm & Ni & Di & Hf). set (s := m ++ i ++ f) in *.
  assert (P : int_part s = m ++ i /\ frac_part s = f).
  { unfold s. rewrite app_assoc. assert (X : has "." (m ++ i) = false). { rewrite has_app. assert (Y : has "." i = false). { clear -Di. induction i as [|c i IH]; [reflexivity|]. cbn [all_digits has] in *. apply andb_prop in Di. destruct Di as (D1 & D2). rewrite (IH D2). destruct (digit_char c D1) as (_ & _ & X). destruct (Ascii.eqb_spec "." c) as [<-|]; [discriminate|reflexivity]. } rewrite Y. destruct Hm as [-> | ->]; reflexivity. }
    clear -X Hf. induction (m ++ i) as [|c t IH]; cbn [append].
    - destruct Hf as [-> | (d & -> & _)]; auto.
    - cbn [has] in X. apply orb_false_iff in X. destruct X as (X1 & X2). rewrite Ascii.eqb_sym in X1. cbn [int_part frac_part]. rewrite X1. destruct (IH X2) as (-> & ->). auto. }
  destruct P as (P1 & P2). split.
  - unfold is_float. apply orb_true_iff. right. unfold s. rewrite frun_decimal by assumption. destruct Hf as [-> | (d & -> & Nd & Dd)]; [reflexivity|]. cbn [frun]. change (fstep FInt ".") with FPoint. destruct d as [|c d]; [reflexivity|]. cbn in Dd. apply andb_prop in Dd. destruct Dd as (D1 & D2). cbn [frun]. rewrite fstep_digit by exact D1. rewrite frun_digits by auto. reflexivity.
  - unfold word, frac_word. rewrite P1, P2. rewrite <- app_assoc. unfold is_float. apply orb_true_iff. right. rewrite frun_decimal by assumption. destruct (String.eqb f ".0"); [reflexivity|].
    destruct Hf as [-> | (d & -> & Nd & Dd)]; [reflexivity|]. cbn [frun]. change (fstep FInt ".") with FPoint. destruct d as [|c d]; [reflexivity|]. cbn in Dd. apply andb_prop in Dd. destruct Dd as (D1 & D2). cbn [frun]. rewrite fstep_digit by exact D1. rewrite frun_digits by auto. reflexivity.
Qed.

Lemma refloat_idem s : refloat (refloat s) = refloat s.
Proof.
  assert (L : forall t c, last_chars 1 (t ++ String c "") = String c "").
  { intros t c. unfold last_chars. rewrite length_app. cbn [String.length]. rewrite Nat.add_sub. induction t as [|d t IH]; [reflexivity|exact IH]. }
  assert (D : forall t, has "." t = true -> all_digits (unsigned t) = false).
  { assert (D0 : forall t, has "." t = true -> all_digits t = false). { induction t as [|c t IH]; [discriminate|]. cbn [has all_digits]. intros H. apply orb_prop in H. destruct H as [H|H]; [apply Ascii.eqb_eq in H; subst c; reflexivity|]. rewrite (IH H). apply andb_false_r. }
    intros t H. destruct t as [|c t]; [discriminate|]. cbn [unsigned]. destruct (Ascii.eqb c "+" || Ascii.eqb c "-")%bool eqn:E; [|apply D0; exact H]. apply D0. cbn [has] in H. apply orb_prop in H. destruct H as [H|H]; [|exact H]. apply Ascii.eqb_eq in H. subst c. discriminate. }
  assert (Z : forall t, has "." t = true -> String.eqb (last_chars 1 t) "." = false -> refloat t = t) by (intros t H1 H2; unfold refloat; rewrite (D t H1), H2, andb_false_r; reflexivity).
  unfold refloat at 2 3. destruct (negb (String.eqb (unsigned s) "") && all_digits (unsigned s)) eqn:C.
  - apply Z; [rewrite has_app; apply orb_true_r|]. change ".0" with ("." ++ "0"). rewrite app_assoc. rewrite L. reflexivity.
  - destruct (String.eqb_spec (last_chars 1 s) ".") as [E|N].
    + apply Z; [|rewrite L; reflexivity]. assert (X : has "." s = true). { clear -E. unfold last_chars in E. induction s as [|c s IH]; [discriminate|]. destruct s as [|c' s]; [injection E as ->; reflexivity|]. cbn [has]. cbn [has] in IH. rewrite IH; [apply orb_true_r|]. cbn [String.length] in *. rewrite !Nat.sub_succ, !Nat.sub_0_r in *. exact E. } rewrite has_app, X. reflexivity.
    + unfold refloat. rewrite C. destruct (String.eqb_spec (last_chars 1 s) "."); [contradiction|reflexivity].
Qed.
Lemma last_app t c : last_chars 1 (t ++ String c "") = String c "".
Proof. unfold last_chars. rewrite length_app. cbn [String.length]. rewrite Nat.add_sub. induction t as [|d t IH]; [reflexivity|exact IH]. Qed.
Lemma snoc s : s <> "" -> exists t c, s = t ++ String c "".
Proof. induction s as [|c s IH]; [contradiction|]. intros _. destruct s as [|d s]; [exists "", c; reflexivity|]. destruct (IH ltac:(discriminate)) as (t & e & ->). exists (String c t), e. reflexivity. Qed.
Lemma digits_unsigned s : s <> "" -> all_digits s = true -> unsigned s = s.
Proof. destruct s as [|c s]; [contradiction|]. intros _ H. cbn in H. apply andb_prop in H. destruct H as (H & _). destruct (digit_char c H) as (A & B & _). cbn [unsigned]. rewrite A, B. reflexivity. Qed.
Lemma digits_app a b : all_digits (a ++ b) = all_digits a && all_digits b.
Proof. induction a as [|c a IH]; cbn; [reflexivity|rewrite IH, andb_assoc; reflexivity]. Qed.
Lemma digits_no_dot s : all_digits s = true -> has "." s = false.
Proof. induction s as [|c s IH]; [reflexivity|]. cbn [all_digits has]. intros H. apply andb_prop in H. destruct H as (D1 & D2). rewrite (IH D2). destruct (digit_char c D1) as (_ & _ & X). rewrite Ascii.eqb_sym, X. reflexivity. Qed.
Lemma nonempty_spec s : nonempty s = true <-> s <> "".
Proof. unfold nonempty. rewrite negb_true_iff. apply String.eqb_neq. Qed.
Lemma unsigned_decimal m i f : (m = "" \/ m = "-") -> nonempty i = true -> all_digits i = true -> unsigned (m ++ i ++ f) = i ++ f.
Proof.
  intros [-> | ->] N D; [|reflexivity]. cbn [append]. destruct i as [|c i]; [discriminate|]. cbn in D. apply andb_prop in D. destruct D as (D & _). destruct (digit_char c D) as (A & B & _). cbn [append unsigned]. rewrite A, B. reflexivity.
Qed.
Lemma refloat_int m i : (m = "" \/ m = "-") -> nonempty i = true -> all_digits i = true -> refloat (m ++ i) = m ++ i ++ ".0".
Proof.
  intros M' N D. unfold refloat. assert (U := unsigned_decimal m i "" M' N D). rewrite app_nil_r in U. rewrite U. rewrite D. unfold nonempty in N. rewrite N. cbn [andb]. symmetry. apply app_assoc.
Qed.
Lemma refloat_point m i : (m = "" \/ m = "-") -> nonempty i = true -> all_digits i = true -> refloat (m ++ i ++ ".") = m ++ i ++ ".0".
Proof.
  intros M' N D. unfold refloat. rewrite (unsigned_decimal m i "." M' N D). rewrite digits_app. change (all_digits ".") with false. rewrite !andb_false_r. rewrite app_assoc, last_app. cbn [String.eqb]. rewrite <- !app_assoc. reflexivity.
Qed.
Lemma refloat_frac m i d : (m = "" \/ m = "-") -> nonempty i = true -> all_digits i = true -> nonempty d = true -> all_digits d = true -> refloat (m ++ i ++ String "." d) = m ++ i ++ String "." d.
Proof.
  intros M' N D Nd Dd. unfold refloat. rewrite (unsigned_decimal m i _ M' N D). rewrite digits_app. change (all_digits (String "." d)) with false. rewrite !andb_false_r.
  apply nonempty_spec in Nd. destruct (snoc d Nd) as (t & c & ->). change (String "." (t ++ String c "")) with (String "." t ++ String c ""). rewrite !app_assoc, last_app. rewrite digits_app in Dd. apply andb_prop in Dd. destruct Dd as (_ & Dc). cbn in Dc. rewrite andb_true_r in Dc. destruct (digit_char c Dc) as (_ & _ & X).
  cbn [String.eqb]. rewrite X. reflexivity.
Qed.
Lemma decimal_parts m i f : (m = "" \/ m = "-") -> nonempty i = true -> all_digits i = true -> (f = "" \/ exists d, f = String "." d) -> int_part (m ++ i ++ f) = m ++ i /\ frac_part (m ++ i ++ f) = f.
Proof.
  intros Hm Ni Di Hf. rewrite app_assoc. assert (X : has "." (m ++ i) = false) by (rewrite has_app, (digits_no_dot i Di); destruct Hm as [-> | ->]; reflexivity).
  clear -X Hf. induction (m ++ i) as [|c t IH]; cbn [append].
  - destruct Hf as [-> | (d & ->)]; auto.
  - cbn [has] in X. apply orb_false_iff in X. destruct X as (X1 & X2). rewrite Ascii.eqb_sym in X1. cbn [int_part frac_part]. rewrite X1. destruct (IH X2) as (-> & ->). auto.
Qed.
Lemma decimal_refloat s : decimal s = true -> refloat (word s) = refloat s /\ decimal (refloat s) = true.
Proof.
  intros H. apply decimal_form in H. destruct H as (m & i & f & -> & Hm & Ni & Di & Hf).
  assert (Hf' : f = "" \/ exists d, f = String "." d) by (destruct Hf as [|(d & -> & _)]; eauto). destruct (decimal_parts m i f Hm Ni Di Hf') as (P1 & P2). unfold word, frac_word. rewrite P1, P2.
  assert (DZ : decimal (m ++ i ++ ".0") = true) by (apply decimal_form; exists m, i, ".0"; repeat split; auto; right; exists "0"; auto).
  destruct Hf as [-> | (d & -> & Nd & Dd)].
  - cbn [String.eqb]. rewrite !app_nil_r. rewrite refloat_int by assumption. auto.
  - destruct (String.eqb_spec (String "." d) ".0") as [E|N].
    + injection E as ->. rewrite <- app_assoc, refloat_point by assumption. rewrite refloat_frac by auto. auto.
    + rewrite <- app_assoc. rewrite refloat_frac by auto. split; [reflexivity|]. apply decimal_form. exists m, i, (String "." d). repeat split; auto. right. exists d. auto.
Qed.
Lemma is_float_refloat s : is_float s = true -> is_float (refloat s) = true.
Proof.
  intros H. unfold refloat. destruct (negb (String.eqb (unsigned s) "") && all_digits (unsigned s)) eqn:C.
  - apply andb_prop in C. destruct C as (C1 & C2). unfold is_float. apply orb_true_iff. right. rewrite frun_app.
    assert (E : frun FStart s = FInt). { destruct s as [|c s]; [discriminate|]. cbn [unsigned] in *. destruct (Ascii.eqb c "+" || Ascii.eqb c "-") eqn:S'.
      - destruct s as [|d s]; [discriminate|]. cbn [all_digits] in C2. apply andb_prop in C2. destruct C2 as (D1 & D2). cbn [frun]. assert (F : fstep FStart c = FSign) by (apply orb_prop in S'; destruct S' as [S'|S']; apply Ascii.eqb_eq in S'; subst c; reflexivity). rewrite F, fstep_digit by exact D1. apply frun_digits; auto.
      - cbn [all_digits] in C2. apply andb_prop in C2. destruct C2 as (D1 & D2). cbn [frun]. rewrite fstep_digit by exact D1. apply frun_digits; auto. }
    rewrite E. reflexivity.
  - destruct (String.eqb_spec (last_chars 1 s) ".") as [E|N]; [|exact H]. assert (Ns := is_float_nonempty s H). destruct (snoc s Ns) as (t & c & ->). rewrite last_app in E. injection E as ->. unfold is_float in *. apply orb_true_iff. right. apply orb_prop in H. destruct H as [H|H].
    + exfalso. assert (X : has "." (lower (unsigned (t ++ "."))) = true).
      { assert (L : forall u, has "." u = true -> has "." (lower u) = true) by (induction u as [|d u IH]; [discriminate|]; cbn [has lower mapc]; intros Y; apply orb_prop in Y; destruct Y as [Y|Y]; [apply Ascii.eqb_eq in Y; subst d; reflexivity|]; fold lower in *; rewrite (IH Y); apply orb_true_r).
        apply L. destruct t as [|d t]; [reflexivity|]. cbn [append unsigned]. destruct (Ascii.eqb d "+" || Ascii.eqb d "-"); cbn [has]; rewrite has_app; cbn; rewrite ?orb_true_r; reflexivity. }
      unfold special, mem in H. cbn [existsb] in H. repeat (apply orb_prop in H; destruct H as [H|H]); try discriminate; apply String.eqb_eq in H; rewrite H in X; discriminate.
    + rewrite frun_app in H. rewrite <- app_assoc. rewrite frun_app. destruct (frun FStart t); cbn in H |- *; try discriminate; reflexivity.
Qed.

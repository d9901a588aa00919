(** Facts about the string functions of TextModel. *)
From Coq Require Import String Ascii List Arith Bool Lia.
From Verif Require Import Base TextModel.
Import ListNotations.
Local Open Scope string_scope.

Lemma app_nil_r s : s ++ "" = s. Proof. induction s as [|c s IH]; cbn; [reflexivity|f_equal; exact IH]. Qed.
Lemma app_assoc a b c : a ++ b ++ c = (a ++ b) ++ c. Proof. induction a as [|x a IH]; cbn; [reflexivity|f_equal; exact IH]. Qed.
Lemma length_app a b : String.length (a ++ b) = String.length a + String.length b. Proof. induction a as [|x a IH]; cbn; [reflexivity|f_equal; exact IH]. Qed.
Lemma has_app c a b : has c (a ++ b) = has c a || has c b. Proof. induction a as [|x a IH]; cbn; [reflexivity|rewrite IH, orb_assoc; reflexivity]. Qed.

(** ** lines and split *)
Lemma lines_cat s t : has newline s = false -> lines (s ++ String newline t) = s :: lines t.
Proof.
  induction s as [|c s IH]; intros H; cbn [append lines]. { reflexivity. } cbn [has] in H. apply orb_false_iff in H. destruct H as (H1 & H2). rewrite H1, (IH H2). reflexivity.
Qed.
Lemma lines_concat l : Forall (fun s => has newline s = false) l -> lines (String.concat "" (map line_of l)) = l.
Proof.
  induction 1 as [|s l H HL IH]; [reflexivity|]. cbn [map]. destruct l as [|s' l].
  - cbn [map String.concat]. unfold line_of. apply lines_cat. exact H.
  - change (String.concat "" (line_of s :: map line_of (s' :: l))) with (line_of s ++ "" ++ String.concat "" (map line_of (s' :: l))). unfold line_of at 1. rewrite <- app_assoc. cbn [append]. rewrite (lines_cat s _ H). f_equal. exact IH.
Qed.
Lemma split_none c s : has c s = false -> split c s = [s].
Proof. induction s as [|d s IH]; intros H; cbn [split]; [reflexivity|]. cbn [has] in H. apply orb_false_iff in H. destruct H as (H1 & H2). rewrite H1, (IH H2). reflexivity. Qed.
Lemma split_at c a b : has c a = false -> split c (a ++ String c b) = a :: split c b.
Proof. induction a as [|d a IH]; intros H; cbn [append split]; [rewrite Ascii.eqb_refl; reflexivity|]. cbn [has] in H. apply orb_false_iff in H. destruct H as (H1 & H2). rewrite H1, (IH H2). reflexivity. Qed.
Lemma split_nonempty c s : exists w ws, split c s = w :: ws.
Proof. induction s as [|d s (w & ws & IH)]; cbn; [eauto|]. destruct (Ascii.eqb c d); [eauto|]. rewrite IH. eauto. Qed.
(** The texts between the separators contain none, and joined again give the text. *)
Lemma split_join c s : join (String c "") (split c s) = s /\ Forall (fun w => has c w = false) (split c s).
Proof.
  induction s as [|d s (J & F)]; cbn [split]. { split; [reflexivity|constructor; [reflexivity|constructor]]. }
  destruct (split_nonempty c s) as (w & ws & E). destruct (Ascii.eqb_spec c d) as [->|N].
  - split; [|constructor; [reflexivity|exact F]]. rewrite E in *. cbn [join append]. f_equal. exact J.
  - rewrite E in *. inversion F as [|? ? F1 F2]; subst. split.
    + destruct ws as [|w' ws]; cbn [join] in *; [reflexivity|]. cbn [append]. reflexivity.
    + constructor; [|exact F2]. cbn [has]. rewrite F1. destruct (Ascii.eqb_spec c d); [contradiction|reflexivity].
Qed.
Lemma split_of_join c l : l <> [] -> Forall (fun w => has c w = false) l -> split c (join (String c "") l) = l.
Proof.
  intros N H. destruct l as [|w l]; [contradiction|]. clear N. revert w H. induction l as [|w' l IH]; intros w H; inversion H as [|? ? H1 H2]; subst.
  - cbn [join]. apply split_none. exact H1.
  - change (join (String c "") (w :: w' :: l)) with (w ++ String c "" ++ join (String c "") (w' :: l)). cbn [append]. rewrite split_at by exact H1. f_equal. apply IH. exact H2.
Qed.

(** ** contains and remove *)
Lemma prefix_app w s : prefix w (w ++ s) = true. Proof. induction w as [|c w IH]; [destruct s; reflexivity|]. cbn. destruct (ascii_dec c c); [exact IH|contradiction]. Qed.
Lemma remove_skip w p s : remove_from w (p ++ s) (String.length p) = remove_from w s 0.
Proof. induction p as [|c p IH]; cbn; [reflexivity|exact IH]. Qed.
Lemma remove_prefix c w s : remove (String c w) (String c w ++ s) = remove (String c w) s.
Proof. unfold remove. set (W := String c w). change (W ++ s) with (String c (w ++ s)). cbn [remove_from]. change (String c (w ++ s)) with (W ++ s). rewrite prefix_app. unfold W at 2. cbn [String.length]. rewrite Nat.sub_succ, Nat.sub_0_r. apply remove_skip. Qed.
Lemma remove_none w s : contains w s = false -> remove w s = s.
Proof.
  unfold remove. induction s as [|c s IH]; intros H; cbn [remove_from]; [reflexivity|]. cbn [contains] in H. apply orb_false_iff in H. destruct H as (H1 & H2). rewrite H1, (IH H2). reflexivity.
Qed.
Lemma prefix_spec p s : prefix p s = true <-> exists t, s = p ++ t.
Proof.
  revert s. induction p as [|c p IH]; intros s. { split; [intros _; exists s; reflexivity|destruct s; reflexivity]. }
  destruct s as [|d s]; [split; [discriminate|intros (t & E); discriminate]|]. cbn. destruct (ascii_dec c d) as [->|N].
  - rewrite IH. split; intros (t & E); exists t; [rewrite E; reflexivity|]. injection E as E. exact E.
  - split; [discriminate|]. intros (t & E). injection E as E1 _. congruence.
Qed.
Lemma contains_spec p s : contains p s = true <-> exists a b, s = a ++ p ++ b.
Proof.
  split.
  - induction s as [|c s IH]; cbn [contains]; intros H; apply orb_prop in H; destruct H as [H|H]; try discriminate.
    + apply prefix_spec in H. destruct H as (t & E). exists "", t. exact E.
    + apply prefix_spec in H. destruct H as (t & E). exists "", t. exact E.
    + destruct (IH H) as (a & b & E). exists (String c a), b. rewrite E. reflexivity.
  - intros (a & b & ->). induction a as [|c a IH]; cbn [append contains].
    + assert (X : prefix p (p ++ b) = true) by apply prefix_app. destruct (p ++ b); cbn [contains]; rewrite X; reflexivity.
    + rewrite IH. apply orb_true_r.
Qed.
Lemma contains_has c w s : has c w = true -> contains w s = true -> has c s = true.
Proof. intros H C. apply contains_spec in C. destruct C as (a & b & ->). rewrite !has_app, H. rewrite orb_true_r. reflexivity. Qed.
Lemma prefix_sep w p c x : has c w = false -> prefix w (p ++ String c x) = prefix w p.
Proof.
  revert p. induction w as [|d w IH]; intros p H; [destruct p; reflexivity|]. cbn [has] in H. apply orb_false_iff in H. destruct H as (H1 & H2). destruct p as [|e p]; cbn [append prefix].
  - destruct (ascii_dec d c) as [->|]; [rewrite Ascii.eqb_refl in H1; discriminate|reflexivity].
  - destruct (ascii_dec d e); [apply IH; exact H2|reflexivity].
Qed.
Lemma contains_sep w p c x : w <> "" -> has c w = false -> contains w (p ++ String c x) = contains w p || contains w x.
Proof.
  intros N H. induction p as [|d p IH].
  - cbn [append contains]. change (String c x) with ("" ++ String c x). rewrite prefix_sep by exact H. destruct w; [contradiction|]. reflexivity.
  - cbn [append contains]. change (String d (p ++ String c x)) with (String d p ++ String c x). rewrite prefix_sep by exact H. rewrite IH. rewrite orb_assoc. reflexivity.
Qed.
Lemma contains_char c s : contains (String c "") s = has c s.
Proof. induction s as [|d s IH]; cbn; [reflexivity|]. rewrite IH. destruct (ascii_dec c d) as [->|N]; [rewrite Ascii.eqb_refl; destruct s; reflexivity|]. destruct (Ascii.eqb_spec c d); [contradiction|reflexivity]. Qed.
Lemma remove_char_app c a b : remove (String c "") (a ++ b) = remove (String c "") a ++ remove (String c "") b.
Proof.
  unfold remove. induction a as [|d a IH]; [reflexivity|]. cbn [append remove_from]. assert (P : forall t, prefix (String c "") (String d t) = if ascii_dec c d then true else false) by (intros t; cbn; destruct (ascii_dec c d); [destruct t; reflexivity|reflexivity]).
  rewrite !P. cbn [String.length Nat.sub]. destruct (ascii_dec c d); [exact IH|]. cbn [append]. f_equal. exact IH.
Qed.

(** ** strip *)
Fixpoint no_space (s : string) : bool := match s with EmptyString => true | String c r => negb (space c) && no_space r end.
Lemma no_space_has c s : space c = true -> no_space s = true -> has c s = false.
Proof. intros C. induction s as [|d s IH]; cbn; [reflexivity|]. intros H. apply andb_prop in H. destruct H as (H1 & H2). rewrite (IH H2). destruct (Ascii.eqb_spec c d) as [->|]; [rewrite C in H1; discriminate|reflexivity]. Qed.
Lemma no_space_app a b : no_space (a ++ b) = no_space a && no_space b. Proof. induction a as [|c a IH]; cbn; [reflexivity|rewrite IH, andb_assoc; reflexivity]. Qed.
Lemma rstrip_app_keep a c : space c = false -> rstrip (a ++ String c "") = a ++ String c "".
Proof. intros H. induction a as [|d a IH]; cbn [append rstrip]; [rewrite H; reflexivity|]. rewrite IH. destruct (a ++ String c "") eqn:E; [destruct a; discriminate|reflexivity]. Qed.
Lemma rstrip_no_space s : no_space s = true -> rstrip s = s.
Proof.
  induction s as [|d s IH]; intros H; cbn; [reflexivity|]. cbn in H. apply andb_prop in H. destruct H as (H1 & H2). rewrite (IH H2). apply negb_true_iff in H1. destruct s; [rewrite H1; reflexivity|reflexivity].
Qed.
Lemma strip_no_space s : no_space s = true -> strip s = s.
Proof. intros H. unfold strip. destruct s as [|d s]; [reflexivity|]. cbn [lstrip]. cbn in H. apply andb_prop in H. destruct H as (H1 & H2). apply negb_true_iff in H1. rewrite H1. apply rstrip_no_space. cbn. rewrite H1, H2. reflexivity. Qed.
Lemma strip_space c s : space c = true -> strip (String c s) = strip s.
Proof. intros H. unfold strip. cbn [lstrip]. rewrite H. reflexivity. Qed.
Lemma rstrip_space a c : space c = true -> rstrip (a ++ String c "") = rstrip a.
Proof. intros H. induction a as [|d a IH]; cbn [append rstrip]; [rewrite H; reflexivity|rewrite IH; reflexivity]. Qed.

(** ** float *)
Definition float_char (c : ascii) : bool := mem (String c "") ["0"; "1"; "2"; "3"; "4"; "5"; "6"; "7"; "8"; "9"; "+"; "-"; "."; "_"; "e"; "E"; "i"; "n"; "f"; "t"; "y"; "a"; "I"; "N"; "F"; "T"; "Y"; "A"].
Fixpoint allc (f : ascii -> bool) (s : string) : bool := match s with EmptyString => true | String c r => f c && allc f r end.
Lemma allc_has f c s : allc f s = true -> f c = false -> has c s = false.
Proof. intros H F. induction s as [|d s IH]; [reflexivity|]. cbn in *. apply andb_prop in H. destruct H as (H1 & H2). rewrite (IH H2). destruct (Ascii.eqb_spec c d) as [->|]; [congruence|reflexivity]. Qed.
Lemma allc_app f a b : allc f (a ++ b) = allc f a && allc f b. Proof. induction a as [|c a IH]; cbn; [reflexivity|rewrite IH, andb_assoc; reflexivity]. Qed.
Lemma frun_bad s : frun FBad s = FBad. Proof. induction s; [reflexivity|assumption]. Qed.
Lemma fstep_char q c : fstep q c <> FBad -> float_char c = true.
Proof. destruct c as [[|] [|] [|] [|] [|] [|] [|] [|]]; vm_compute; try reflexivity; destruct q; intros H; contradiction. Qed.
Lemma frun_chars q s : frun q s <> FBad -> allc float_char s = true.
Proof.
  revert q. induction s as [|c s IH]; intros q H; [reflexivity|]. cbn [frun] in H. cbn [allc]. apply andb_true_intro. split.
  - apply (fstep_char q). intros E. apply H. rewrite E. apply frun_bad.
  - apply (IH _ H).
Qed.
Lemma lower_char c : float_char (lower_ascii c) = true -> float_char c = true.
Proof. destruct c as [[|] [|] [|] [|] [|] [|] [|] [|]]; vm_compute; auto. Qed.
Lemma lower_chars s : allc float_char (lower s) = true -> allc float_char s = true.
Proof. induction s as [|c s IH]; [reflexivity|]. cbn [lower mapc allc]. intros H. apply andb_prop in H. destruct H as (H1 & H2). rewrite (lower_char c H1). apply IH. exact H2. Qed.
Lemma float_chars s : is_float s = true -> allc float_char s = true.
Proof.
  unfold is_float. intros H. apply orb_prop in H. destruct H as [H|H].
  - assert (X : allc float_char (lower (unsigned s)) = true).
    { unfold special, mem in H. cbn [existsb] in H. repeat (apply orb_prop in H; destruct H as [H|H]); try discriminate; apply String.eqb_eq in H; rewrite H; reflexivity. }
    apply lower_chars in X. destruct s as [|c s]; [reflexivity|]. cbn [unsigned] in X. destruct (Ascii.eqb_spec c "+") as [->|]; [cbn in X |- *; exact X|]. destruct (Ascii.eqb_spec c "-") as [->|]; [cbn in X |- *; exact X|]. exact X.
  - apply (frun_chars FStart). destruct (frun FStart s); discriminate.
Qed.
Lemma float_char_space c : float_char c = true -> space c = false.
Proof. destruct c as [[|] [|] [|] [|] [|] [|] [|] [|]]; vm_compute; intros H; try reflexivity; discriminate. Qed.
Lemma float_no_space s : allc float_char s = true -> no_space s = true.
Proof. induction s as [|c s IH]; [reflexivity|]. cbn [allc no_space]. intros H. apply andb_prop in H. destruct H as (H1 & H2). rewrite (float_char_space c H1), (IH H2). reflexivity. Qed.
Lemma float_ok s : is_float s = true -> float s = Ok (refloat s).
Proof. intros H. unfold float. rewrite strip_no_space by (apply float_no_space, float_chars, H). rewrite H. reflexivity. Qed.
Lemma is_float_nonempty s : is_float s = true -> s <> "". Proof. intros H ->. discriminate. Qed.
Lemma frun_app q a b : frun q (a ++ b) = frun (frun q a) b. Proof. revert q. induction a as [|c a IH]; intros q; [reflexivity|apply IH]. Qed.
Lemma has_lstrip c s : space c = false -> has c (lstrip s) = has c s.
Proof.
  intros N. induction s as [|d s IH]; [reflexivity|]. cbn [lstrip]. destruct (space d) eqn:D; [|reflexivity]. rewrite IH. cbn [has]. destruct (Ascii.eqb_spec c d) as [->|]; [congruence|reflexivity].
Qed.
Lemma has_rstrip c s : space c = false -> has c (rstrip s) = has c s.
Proof.
  intros N. induction s as [|d s IH]; [reflexivity|]. cbn [rstrip has]. rewrite <- IH. destruct (rstrip s) eqn:E; [|reflexivity]. destruct (space d) eqn:D; [|reflexivity]. cbn [has]. rewrite orb_false_r. destruct (Ascii.eqb_spec c d) as [->|]; [congruence|reflexivity].
Qed.
Lemma has_strip c s : space c = false -> has c (strip s) = has c s.
Proof. intros N. unfold strip. rewrite has_rstrip, has_lstrip by exact N. reflexivity. Qed.
(** A text that contains a character no number has is no number. *)
Lemma not_float c s : float_char c = false -> space c = false -> has c s = true -> float s = Err ValueError.
Proof.
  intros F N H. unfold float. destruct (is_float (strip s)) eqn:E; [|reflexivity]. apply float_chars in E. rewrite <- (has_strip c s N) in H. rewrite (allc_has _ c _ E F) in H. discriminate.
Qed.
